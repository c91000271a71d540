(* C123, C124: the text of a rule, read again. *)
From Coq Require Import String Ascii List PeanoNat NArith ZArith Bool Lia Permutation.
From Verif Require Import GoStr GoStrFacts Shifty MMisc MLists MKw MSec MTime MAttr MLevels MNet MFilter MUri MRule MConv MMeth
  SMisc SKw SLists SSec STime SAttr SFilter SNet STree PRights PSec PNet PKw PMisc PLists PTime PAttr PFilter PRule PTree SAci PAci TMisc TLists TSec TTime TAttr TLevels TFilter TNet TTree TRule SRead TRead TBlank TMeth SBack.
From Verif Require SUri TUri TTab.
Import ListNotations.
Open Scope string_scope.

Lemma outer_line style l : style <> 0%Z -> list_line style l = in_quotes (join " || " l).
Proof. intros H. unfold list_line. apply Z.eqb_neq in H. now rewrite H. Qed.
Lemma cut_join many l l' : cut many l -> cut many l' -> join " || " l = join " || " l' -> l = l'.
Proof.
  destruct many; cbn [cut].
  - intros [N H] [N' H'] E. now apply join_bars_inj.
  - intros [v ->] [v' ->] E. cbn in E. now rewrite E.
Qed.
Lemma quotes_inj a b : in_quotes a = in_quotes b -> a = b.
Proof. exact (quote_inj a b). Qed.

(* what the readings of a rule's text are *)
Lemma bind_reading_one pad r k o l : SMeth.bind_says pad r k o (join " || " l) -> cut (bind_many k) l ->
  (exists c, bind_reading (br_string r) c k o l) /\
  forall c k' o' l', bind_reading (br_string r) c k' o' l' -> k' = k /\ o' = o /\ l' = l /\ c_paren c = false /\ c_pad c = pad.
Proof.
  intros (T & _) C. set (c0 := MkCond (bindkw_name k) (Some (relop_const o)) (Some (XText (join " || " l))) true false pad).
  assert (T0 : br_string r = br_string (Some c0)).
  { rewrite T. unfold c0, br_string, cond_string. cbn [c_kw c_op c_pad c_paren MRule.op_text]. rewrite cop_const. reflexivity. }
  split.
  - exists c0. split; [reflexivity|]. split; [reflexivity|]. split; [exact C|]. rewrite T. reflexivity.
  - intros c k' o' l' (K & O & C' & E).
    set (c1 := MkCond (bindkw_name k') (Some (relop_const o')) (Some (XText (join " || " l'))) true (c_paren c) (c_pad c)).
    assert (E1 : br_string (Some c0) = br_string (Some c1)).
    { rewrite <- T0, E. unfold c1, br_string, cond_string. cbn [c_kw c_op c_pad c_paren MRule.op_text]. rewrite cop_const. reflexivity. }
    destruct (C46_bind c0 c1 k k' o o' eq_refl eq_refl eq_refl eq_refl eq_refl eq_refl E1) as (<- & <- & V & P & D).
    split; [reflexivity|]. split; [reflexivity|]. split; [|split; now symmetry].
    symmetry. apply (cut_join (bind_many k)); [exact C|exact C'|]. now apply quotes_inj.
Qed.
Lemma target_reading_one pad r k o l : SMeth.target_says pad r k o (join " || " l) -> cut (target_many k) l ->
  (exists c, target_reading (tr_string r) c k o l) /\
  forall c k' o' l', target_reading (tr_string r) c k' o' l' -> k' = k /\ o' = o /\ l' = l /\ c_pad c = pad.
Proof.
  intros (T & _) C. set (c0 := MkCond (targetkw_name k) (Some (relop_const o)) (Some (XText (join " || " l))) true true pad).
  assert (T0 : tr_string r = tr_string (Some c0)).
  { rewrite T. unfold c0, tr_string, cond_string. cbn [with_paren c_kw c_op c_pad c_paren MRule.op_text]. rewrite cop_const. reflexivity. }
  split.
  - exists c0. split; [reflexivity|]. split; [reflexivity|]. split; [exact C|]. rewrite T. reflexivity.
  - intros c k' o' l' (K & O & C' & E).
    set (c1 := MkCond (targetkw_name k') (Some (relop_const o')) (Some (XText (join " || " l'))) true true (c_pad c)).
    assert (E1 : tr_string (Some c0) = tr_string (Some c1)).
    { rewrite <- T0, E. unfold c1, tr_string, cond_string. cbn [with_paren c_kw c_op c_pad c_paren MRule.op_text]. rewrite cop_const. reflexivity. }
    destruct (C46_target c0 c1 k k' o o' eq_refl eq_refl eq_refl eq_refl eq_refl eq_refl E1) as (<- & <- & V & D).
    split; [reflexivity|]. split; [reflexivity|]. split; [|now symmetry].
    symmetry. apply (cut_join (target_many k)); [exact C|exact C'|]. now apply quotes_inj.
Qed.

(* a rule comes back exactly when the reader of its keyword gives its value again *)
Definition again (en : env) (k : bindkw) (l : list string) : Prop :=
  forall c style, c_kw c = bindkw_name k -> style <> 0%Z -> reads en c style l (in_quotes (join " || " l)).
Definition tagain (en : env) (k : targetkw) (l : list string) : Prop :=
  forall c style, c_kw c = targetkw_name k -> style <> 0%Z -> treads en c style l (in_quotes (join " || " l)).
(* ... and does not when the reader refuses it or gives another value *)
Definition never (en : env) (k : bindkw) (l : list string) : Prop :=
  forall c style, c_kw c = bindkw_name k -> style <> 0%Z -> refuses en c style l \/ exists t, t <> join " || " l /\ reads en c style l (in_quotes t).
Definition tnever (en : env) (k : targetkw) (l : list string) : Prop :=
  forall c style, c_kw c = targetkw_name k -> style <> 0%Z -> trefuses en c style l \/ exists t, t <> join " || " l /\ treads en c style l (in_quotes t).

Lemma back en pad r k o l : SMeth.bind_says pad r k o (join " || " l) -> cut (bind_many k) l -> again en k l -> bind_back en r.
Proof.
  intros S C A. destruct (bind_reading_one pad r k o l S C) as [[c0 R0] U]. split; [now exists c0, k, o, l|].
  intros c k' o' l' style R Z. destruct (U c k' o' l' R) as (-> & -> & -> & P & D). destruct R as (K & O & _ & E).
  destruct (A c style K Z) as (r' & H1 & H2). exists r'. split; [exact H1|]. rewrite H2, E, K, O. cbn [MRule.op_text]. now rewrite cop_const.
Qed.
Lemma tback en pad r k o l : SMeth.target_says pad r k o (join " || " l) -> cut (target_many k) l -> tagain en k l -> target_back en r.
Proof.
  intros S C A. destruct (target_reading_one pad r k o l S C) as [[c0 R0] U]. split; [now exists c0, k, o, l|].
  intros c k' o' l' style R Z. destruct (U c k' o' l' R) as (-> & -> & -> & D). destruct R as (K & O & _ & E).
  destruct (A c style K Z) as (r' & H1 & H2). exists r'. split; [exact H1|]. rewrite H2, E, K, O. cbn [MRule.op_text]. now rewrite cop_const.
Qed.
Lemma app_cancel_l a : forall b c, a ++ b = a ++ c -> b = c.
Proof. induction a as [|x a IH]; intros b c E; [exact E|]. injection E as E. now apply IH. Qed.
Lemma app_cancel_r c : forall a b, a ++ c = b ++ c -> a = b.
Proof.
  assert (L : forall a : string, String.length (a ++ c) = (String.length a + String.length c)%nat).
  { induction a as [|x a IH]; [reflexivity|]. cbn. now rewrite IH. }
  induction a as [|x a IH]; intros [|y b] E; [reflexivity| | |].
  - apply (f_equal String.length) in E. rewrite !L in E. cbn in E. lia.
  - apply (f_equal String.length) in E. rewrite !L in E. cbn in E. lia.
  - injection E as -> E. f_equal. now apply IH.
Qed.
Lemma line_inj p d kw op a b : rule_line p d kw op a = rule_line p d kw op b -> a = b.
Proof.
  unfold rule_line. cbv zeta. intros E. destruct p.
  - apply app_cancel_l, app_cancel_l, app_cancel_r in E. now do 4 apply app_cancel_l in E.
  - now do 4 apply app_cancel_l in E.
Qed.
Lemma lost en pad r k o l : SMeth.bind_says pad r k o (join " || " l) -> cut (bind_many k) l -> never en k l -> ~ bind_back en r.
Proof.
  intros S C N [_ B]. destruct (bind_reading_one pad r k o l S C) as [[c R] _]. destruct (B c k o l 1%Z R) as (r' & H1 & H2); [discriminate|].
  destruct R as (K & O & _ & E). destruct (N c 1%Z K) as [X|(t & T & r2 & H3 & H4)]; [discriminate|unfold refuses in X; congruence|].
  rewrite H3 in H1. injection H1 as ->. rewrite H4, E, K, O in H2. cbn [MRule.op_text] in H2. rewrite cop_const in H2. apply T. apply line_inj, quotes_inj in H2. exact H2.
Qed.
Lemma tlost en pad r k o l : SMeth.target_says pad r k o (join " || " l) -> cut (target_many k) l -> tnever en k l -> ~ target_back en r.
Proof.
  intros S C N [_ B]. destruct (target_reading_one pad r k o l S C) as [[c R] _]. destruct (B c k o l 1%Z R) as (r' & H1 & H2); [discriminate|].
  destruct R as (K & O & _ & E). destruct (N c 1%Z K) as [X|(t & T & r2 & H3 & H4)]; [discriminate|unfold trefuses in X; congruence|].
  rewrite H3 in H1. injection H1 as ->. rewrite H4, E, K, O in H2. cbn [MRule.op_text] in H2. rewrite cop_const in H2. apply T. apply line_inj, quotes_inj in H2. exact H2.
Qed.
Lemma same_kw s : eqfold s s = true.
Proof. now apply eqfold_iff. Qed.

(* ---- texts that are read as they stand ---- *)
Lemma kept_condense t : kept t -> condenseWHSP t = t.
Proof.
  intros (A & W & F & L). rewrite condense_words by exact A. rewrite trim_id; [exact W|exact A|]. split; intros c H; [apply (F c H)|apply (L c H)].
Qed.
Lemma settled_kept t : settled t -> kept t.
Proof. intros (A & W & F & L). split; [exact A|]. split; [exact W|]. split; intros c H; [apply (F c H)|apply (L c H)]. Qed.
Lemma settled_condense t : settled t -> condenseWHSP t = t.
Proof. intros S. apply kept_condense, settled_kept, S. Qed.
Lemma settled_read t : settled t -> unquote (condenseWHSP t) = t.
Proof.
  intros S. rewrite (settled_condense t S). destruct S as (_ & _ & F & L). apply unquote_plain; intros c H; [apply (F c H)|apply (L c H)].
Qed.
Definition clean_byte (c : ascii) : bool := (ascii_byte c && negb (white c) && negb (is_quote c))%bool.
Lemma last_in s c : last_byte s = Some c -> In c (chars s).
Proof. induction s as [|a s IH]; [discriminate|]. destruct s as [|b s]; [cbn; intros [= ->]; now left|]. intros H. right. now apply IH. Qed.
Lemma all_bytes_chars f s : all_bytes f s = true <-> forall c, In c (chars s) -> f c = true.
Proof.
  induction s as [|a s IH]; cbn; [split; [intros _ c []|reflexivity]|]. rewrite andb_true_iff, IH. split.
  - intros [A B] c [<-|H]; [exact A|now apply B].
  - intros H. split; [apply H; now left|intros c I; apply H; now right].
Qed.
Lemma clean_settled t : t <> "" -> (forall c, In c (chars t) -> clean_byte c = true) -> settled t.
Proof.
  intros N H. assert (H' : forall c, In c (chars t) -> ascii_byte c = true /\ white c = false /\ is_quote c = false).
  { intros c I. specialize (H c I). unfold clean_byte in H. apply andb_true_iff in H as [H Q]. apply andb_true_iff in H as [A B].
    apply negb_true_iff in B, Q. now repeat split. }
  split; [|split; [|split]].
  - unfold is_ascii. apply all_bytes_chars. intros c I. apply (H' c I).
  - rewrite words_single; [reflexivity|exact N|]. apply all_bytes_chars. intros c I. apply negb_true_iff, nonwhite_nonblank. apply (H' c I).
  - intros c E. destruct t as [|a t]; [discriminate|]. injection E as ->. apply (H' c). now left.
  - intros c E. apply (H' c). now apply last_in.
Qed.
Lemma chars_in_join sep l c : In c (chars (join sep l)) -> In c (chars sep) \/ exists x, In x l /\ In c (chars x).
Proof.
  induction l as [|x l IH]; [intros []|]. destruct l as [|y l].
  - cbn [join]. intros H. right. exists x. split; [now left|exact H].
  - rewrite join_cons, !chars_app, !in_app_iff. intros [H|[H|H]].
    + right. exists x. split; [now left|exact H].
    + now left.
    + destruct (IH H) as [A|(z & Z & A)]; [now left|]. right. exists z. split; [now right|exact A].
Qed.

(* the single values: the reader accepts the text and shows it again *)
Lemma again_single en k t : Permutation (e_auth en) authNames -> single_valued k = true -> k <> AuthMethod -> settled t -> single_value_ok k t -> again en k [t].
Proof.
  intros P S NA ST OK c style K Z. assert (R := settled_read t ST).
  assert (KE : eqfold (c_kw c) (bindkw_name k) = true) by (rewrite K; apply same_kw).
  destruct (proj2 (C58_accept en c k style t P KE S)) as [r Hr]; [now rewrite R|].
  destruct (C58_shown en c k style t r P KE S Hr) as (s & T & E & _). specialize (E NA). rewrite R in E. subst s.
  exists r. split; [exact Hr|exact T].
Qed.
Lemma never_single en k t : Permutation (e_auth en) authNames -> single_valued k = true -> settled t -> ~ single_value_ok k t -> never en k [t].
Proof.
  intros P S ST NO c style K Z. left. assert (R := settled_read t ST).
  assert (KE : eqfold (c_kw c) (bindkw_name k) = true) by (rewrite K; apply same_kw).
  assert (X := C58_accept en c k style t P KE S). rewrite R in X. unfold refuses, raw. fold (given c style t).
  destruct (br_assert en (Some (given c style t))) as [| |r] eqn:E; [|reflexivity|].
  - exfalso. unfold br_assert, given in E. cbn [with_ex c_ex br_keyword c_kw] in E. rewrite bkw_round, (known_bind c k KE) in E.
    assert (Y := single_text en k t P S). destruct (assert_bind en (bindkw_const k) [t]); [exact Y|discriminate E|discriminate E].
  - exfalso. apply NO, X. now exists r.
Qed.

Lemma never_unsettled en k t : Permutation (e_auth en) authNames -> single_valued k = true -> k <> AuthMethod -> unquote (condenseWHSP t) <> t -> never en k [t].
Proof.
  intros P S NA U c style K Z.
  assert (KE : eqfold (c_kw c) (bindkw_name k) = true) by (rewrite K; apply same_kw).
  assert (X := C58_accept en c k style t P KE S). assert (Y := C58_shown en c k style t). unfold refuses, reads, raw. fold (given c style t).
  destruct (br_assert en (Some (given c style t))) as [| |r] eqn:E; [|now left|].
  - exfalso. unfold br_assert, given in E. cbn [with_ex c_ex br_keyword c_kw] in E. rewrite bkw_round, (known_bind c k KE) in E.
    assert (W := single_text en k t P S). destruct (assert_bind en (bindkw_const k) [t]); [exact W|discriminate E|discriminate E].
  - right. destruct (Y r P KE S eq_refl) as (s & T & N & _). specialize (N NA). exists s. split; [cbn [join]; congruence|]. exists r. split; [reflexivity|exact T].
Qed.
(* bytes outside ASCII: a text without white space, quotation marks and the bytes 128
   to 160 is encoded once more and otherwise kept *)
Definition fine_byte (c : ascii) : bool := (negb (white c) && negb (is_quote c) && negb (byte_between 128 160 c))%bool.
Lemma no_match qs u : (forall q, In q qs -> has_prefix q u = false) -> first_match qs u = None.
Proof. induction qs as [|q qs IH]; intros H; [reflexivity|]. cbn [first_match]. rewrite (H q (or_introl eq_refl)). apply IH. intros q' Q. apply H. now right. Qed.
Lemma prefix_chars q u x : has_prefix q u = true -> In x (chars q) -> In x (chars u).
Proof.
  revert u. induction q as [|a q IH]; intros u H I; [destruct I|]. destruct u as [|b u]; [discriminate|]. cbn in H. apply andb_true_iff in H as [E H].
  apply Ascii.eqb_eq in E as ->. destruct I as [<-|I]; [now left|right; now apply IH].
Qed.
Lemma spaces_not_fine q : In q space_seqs \/ In q (map srev space_seqs) -> exists x, In x (chars q) /\ fine_byte x = false.
Proof.
  assert (H : forallb (fun q => existsb (fun x => negb (fine_byte x)) (chars q)) (space_seqs ++ map srev space_seqs)%list = true) by (vm_compute; reflexivity).
  rewrite forallb_forall in H. intros Q. specialize (H q (proj2 (in_app_iff _ _ _) Q)). apply existsb_exists in H as (x & X & F). exists x. split; [exact X|now apply negb_true_iff].
Qed.
Lemma trim_id t : first_match space_seqs t = None -> first_match (map srev space_seqs) (srev t) = None -> trim_space t = t.
Proof.
  intros A B. unfold trim_space, trim_left. assert (E : trim_left_aux space_seqs 0 t = t) by (destruct t; [reflexivity|cbn [trim_left_aux]; now rewrite A]).
  rewrite E. assert (F : trim_left_aux (map srev space_seqs) 0 (srev t) = srev t) by (destruct (srev t); [reflexivity|cbn [trim_left_aux]; now rewrite B]).
  rewrite F. apply srev_involutive.
Qed.
Lemma fine_trim t : (forall c, In c (chars t) -> fine_byte c = true) -> trim_space t = t.
Proof.
  intros H. apply trim_id; apply no_match; intros q Q; destruct (has_prefix q _) eqn:E; try reflexivity; exfalso.
  - destruct (spaces_not_fine q (or_introl Q)) as (x & X & F). rewrite (H x (prefix_chars _ _ _ E X)) in F. discriminate.
  - destruct (spaces_not_fine q (or_intror Q)) as (x & X & F). assert (I := prefix_chars _ _ _ E X). rewrite <- all_bytes_chars, <- all_bytes_srev, all_bytes_chars in H.
    rewrite (H x I) in F. discriminate.
Qed.
Lemma encoded_front c r : fine_byte c = true -> first_match space_seqs (utf8_of_byte c ++ r) = None.
Proof. destruct c as [[] [] [] [] [] [] [] []]; intros H; vm_compute in H; try discriminate H; reflexivity. Qed.
Lemma encoded_back c r : fine_byte c = true -> first_match (map srev space_seqs) (srev (utf8_of_byte c) ++ r) = None.
Proof. destruct c as [[] [] [] [] [] [] [] []]; intros H; vm_compute in H; try discriminate H; reflexivity. Qed.
Lemma encoded_edges c : fine_byte c = true ->
  (forall d, first_byte (utf8_of_byte c) = Some d -> is_quote d = false) /\ (forall d, last_byte (utf8_of_byte c) = Some d -> is_quote d = false).
Proof. destruct c as [[] [] [] [] [] [] [] []]; intros H; vm_compute in H; try discriminate H; vm_compute; split; intros d [= <-]; reflexivity. Qed.
Lemma last_app a b : b <> "" -> last_byte (a ++ b) = last_byte b.
Proof. intros N. induction a as [|c a IH]; [reflexivity|]. cbn [append last_byte]. rewrite IH. destruct (a ++ b) eqn:E; [|reflexivity]. destruct a; [now destruct N|discriminate]. Qed.
Lemma reencode_app a b : reencode (a ++ b) = reencode a ++ reencode b.
Proof. induction a as [|c a IH]; [reflexivity|]. cbn [append]. now rewrite !reencode_cons, IH, app_assoc'. Qed.
Lemma split_last t : t <> "" -> exists u c, t = u ++ String c "".
Proof. induction t as [|a t IH]; [easy|]. intros _. destruct t as [|b t]; [now exists "", a|]. destruct (IH ltac:(discriminate)) as (u & c & E). exists (String a u), c. now rewrite E. Qed.
Lemma utf8_nonempty c : utf8_of_byte c <> "".
Proof. unfold utf8_of_byte. now destruct (ascii_byte c). Qed.
Lemma fine_read t : t <> "" -> (forall c, In c (chars t) -> fine_byte c = true) -> unquote (condenseWHSP t) = reencode t.
Proof.
  intros N H. assert (W : words t = [t]).
  { apply words_single; [exact N|]. apply all_bytes_chars. intros c I. apply negb_true_iff, nonwhite_nonblank. specialize (H c I). unfold fine_byte in H.
    apply andb_true_iff in H as [H _]. apply andb_true_iff in H as [H _]. now apply negb_true_iff in H. }
  rewrite C43_exact, (fine_trim t H), W. cbn [map join].
  assert (F : exists c r, t = String c r) by (destruct t as [|c r]; [easy|now exists c, r]). destruct F as (c & r & F).
  destruct (split_last t N) as (u & d & L).
  assert (Fc : fine_byte c = true) by (apply H; rewrite F; now left).
  assert (Fd : fine_byte d = true) by (apply H; rewrite L, chars_app; apply in_or_app; right; now left).
  assert (R1 : reencode t = utf8_of_byte c ++ reencode r) by (rewrite F; apply reencode_cons).
  assert (R2 : reencode t = reencode u ++ utf8_of_byte d) by (rewrite L, reencode_app; f_equal; rewrite reencode_cons; apply app_nil_r').
  rewrite trim_id.
  - apply unquote_plain.
    + intros x. rewrite R1. intros E. apply (proj1 (encoded_edges c Fc)). destruct (utf8_of_byte c) eqn:Q; [now destruct (utf8_nonempty c)|exact E].
    + intros x. rewrite R2, last_app by apply utf8_nonempty. apply (proj2 (encoded_edges d Fd)).
  - rewrite R1. now apply encoded_front.
  - rewrite R2, srev_append. now apply encoded_back.
Qed.
Lemma reencode_length t : (String.length t <= String.length (reencode t))%nat /\ (is_ascii t = false -> String.length t < String.length (reencode t))%nat.
Proof.
  unfold is_ascii. induction t as [|c t [IH1 IH2]]; [split; [easy|discriminate]|]. cbn [reencode all_bytes String.length]. unfold ascii_byte at 1, byte_of.
  destruct (N_of_ascii c <? 128)%N eqn:E; cbn [String.length andb].
  - split; [lia|]. intros H. specialize (IH2 H). lia.
  - split; intros; lia.
Qed.
Lemma reencode_fix t : reencode t = t <-> is_ascii t = true.
Proof.
  split; [|apply reencode_ascii]. intros E. destruct (is_ascii t) eqn:A; [reflexivity|]. assert (L := proj2 (reencode_length t) A). rewrite E in L. lia.
Qed.

(* ---- C123: bind rules ---- *)
(* addresses: every list that can be built *)
Theorem C123_address : forall en pad init h l, Permutation (e_auth en) authNames ->
  ip_run (IP init) h = Some l -> l <> [] -> bind_back en (ip_Eq pad (Some l)) /\ bind_back en (ip_Ne pad (Some l)).
Proof.
  intros en pad init h l P H N. destruct (C19_history init h l H) as (ND & PL & _).
  destruct (C19_text init h l H) as (TX & SP & _). rewrite TX in SP. specialize (SP N).
  assert (PLA : forall x, In x l -> plausible x) by (intros x I; now apply PL).
  assert (A : again en IPAddr [join "," l]).
  { apply again_single; [exact P|reflexivity|discriminate| |].
    - apply clean_settled.
      + destruct l as [|x l]; [now destruct N|]. destruct (PLA x (or_introl eq_refl)) as [L _]. destruct x; [cbn in L; lia|]. destruct l; discriminate.
      + intros c I. apply chars_in_join in I as [I|(x & X & I)]; [destruct I as [<-|[]]; reflexivity|].
        assert (G : forall t, (forall c, In c (chars t) -> clean_byte c = true) -> in_text t c -> clean_byte c = true) by (intros t G1 G2; now apply G1).
        destruct (PLA x X) as [_ [V|V]]; specialize (V c I); [apply (G v4_text)|apply (G v6_text)]; try exact V; apply all_bytes_chars; reflexivity.
    - cbn [single_value_ok]. rewrite SP. now split. }
  assert (C : cut (bind_many IPAddr) [join "," l]) by now eexists.
  destruct l as [|x l]; [now destruct N|]. destruct (proj1 (C71_address pad) x l) as [E1 E2].
  split; [apply (back en pad _ IPAddr REq [join "," (x :: l)])|apply (back en pad _ IPAddr RNe [join "," (x :: l)])]; assumption.
Qed.

(* host names: exactly those of at most 63 bytes, all of them ASCII *)
Lemma label_fine c : label_byte c \/ c = "."%char -> fine_byte c = true.
Proof.
  intros H. assert (B : mem_text "." c = true \/ piece_byte c = true).
  { destruct H as [H| ->]; [right; now apply label_piece|left; reflexivity]. }
  clear H. destruct B as [B|B]; destruct c as [[] [] [] [] [] [] [] []]; vm_compute in B; try discriminate B; reflexivity.
Qed.
Theorem C123_fqdn : forall en pad init h l, Permutation (e_auth en) authNames ->
  fqdn_run (DNS init) h = Some l -> fqdn_valid (Some l) = true ->
  let shown := (String.length (join "." l) <= 63)%nat /\ is_ascii (join "." l) = true in
  (bind_back en (fqdn_Eq pad (Some l)) <-> shown) /\ (bind_back en (fqdn_Ne pad (Some l)) <-> shown).
Proof.
  intros en pad init h l P H V shown. assert (LB := C20_labels init h l H). destruct (C20_text init h l H V) as [T SP]. rewrite T in SP.
  assert (LN := proj1 (fqdn_valid_iff l) V).
  assert (FB : forall c, In c (chars (join "." l)) -> fine_byte c = true).
  { intros c I. apply label_fine. apply chars_in_join in I as [I|(x & X & I)]; [destruct I as [<-|[]]; now right|]. left. destruct (LB x X) as (_ & B & _). now apply B. }
  assert (NE : join "." l <> "").
  { destruct l as [|x [|y l]]; [cbn in LN; lia|cbn in LN; lia|]. destruct (LB x (or_introl eq_refl)) as [L _]. rewrite join_cons. destruct x; [cbn in L; lia|discriminate]. }
  assert (RD := fine_read _ NE FB).
  assert (C : cut (bind_many DNSName) [join "." l]) by now eexists.
  destruct (proj1 (C71_fqdn pad (Some l)) V) as [E1 E2]. rewrite T in E1, E2.
  assert (YES : shown -> again en DNSName [join "." l]).
  { intros [S1 S2]. apply again_single; [exact P|reflexivity|discriminate| |].
    - apply clean_settled; [exact NE|]. intros c I. assert (F := FB c I). unfold fine_byte, clean_byte in *. apply andb_true_iff in F as [F _].
      unfold is_ascii in S2. rewrite all_bytes_chars in S2. rewrite (S2 c I). exact F.
    - cbn [single_value_ok]. left. rewrite SP. split; [exact LN|]. split; [exact S1|exact LB]. }
  assert (NO : ~ shown -> never en DNSName [join "." l]).
  { intros NS. destruct (is_ascii (join "." l)) eqn:A.
    - apply never_single; [exact P|reflexivity| |].
      + apply clean_settled; [exact NE|]. intros c I. assert (F := FB c I). unfold fine_byte, clean_byte in *. apply andb_true_iff in F as [F _].
        unfold is_ascii in A. rewrite all_bytes_chars in A. rewrite (A c I). exact F.
      + cbn [single_value_ok]. rewrite SP. intros [(_ & L & _)|B]; [apply NS; now split|].
        assert (I : In "<"%char (chars (join "." l))) by (rewrite B; now left).
        apply chars_in_join in I as [[I|[]]|(x & X & I)]; [discriminate I|]. destruct (LB x X) as (_ & LBx & _). destruct (LBx _ I) as [Z|Z]; [discriminate Z|].
        cbn in Z. intuition discriminate.
    - apply never_unsettled; [exact P|reflexivity|discriminate|]. rewrite RD. intros E. apply reencode_fix in E. congruence. }
  assert (D : shown \/ ~ shown) by (unfold shown; destruct (Nat.le_gt_cases (String.length (join "." l)) 63); destruct (is_ascii (join "." l)); [left; now split|right; now intros [_ ?]|right; intros [? _]; lia|right; intros [? _]; lia]).
  split; (split; [intros BB; destruct D as [D|D]; [exact D|exfalso]|intros S]).
  - now apply (lost en pad _ DNSName REq [join "." l] E1 C (NO D)).
  - now apply (back en pad _ DNSName REq [join "." l] E1 C (YES S)).
  - now apply (lost en pad _ DNSName RNe [join "." l] E2 C (NO D)).
  - now apply (back en pad _ DNSName RNe [join "." l] E2 C (YES S)).
Qed.
Lemma one_back en pad r k o t : SMeth.bind_says pad r k o t -> bind_many k = false -> again en k [t] -> bind_back en r.
Proof. intros S M A. apply (back en pad r k o [t]); [exact S| |exact A]. rewrite M. now exists t. Qed.
Lemma one_tback en pad r k o t : SMeth.target_says pad r k o t -> target_many k = false -> tagain en k [t] -> target_back en r.
Proof. intros S M A. apply (tback en pad r k o [t]); [exact S| |exact A]. rewrite M. now exists t. Qed.

(* authentication methods, in either letter case *)
Theorem C123_auth_method : forall en pad m, Permutation (e_auth en) authNames ->
  bind_back en (am_Eq (e_low en) pad (authm_const m)) /\ bind_back en (am_Ne (e_low en) pad (authm_const m)).
Proof.
  intros en pad m P. destruct (proj1 (C71_auth_method (e_low en) pad (authm_const m)) ltac:(destruct m; discriminate)) as [E1 E2].
  assert (A : again en AuthMethod [auth_string (e_low en) (authm_const m)]).
  { intros c style K Z. change (join " || " [?t]) with t. apply (bind_text en c AuthMethod); [rewrite K; apply same_kw|].
    set (t := auth_string (e_low en) (authm_const m)).
    assert (R : unquote (condenseWHSP t) = t) by (unfold t; destruct (e_low en), m; vm_compute; reflexivity).
    change (assert_bind en (bindkw_const AuthMethod) [t]) with
      (of_opt (fun m => XText (auth_string_in (e_auth en) (e_low en) m)) (assertBindAuthenticationMethod (e_auth en) (e_low en) [t])).
    rewrite (proj2 (proj1 (C15_accept (e_auth en) (e_low en) t P) m)).
    - cbn [of_opt]. do 2 f_equal. rewrite (auth_string_spec _ _ _ P). unfold t, auth_string. symmetry. now apply auth_string_spec.
    - rewrite R. unfold t, auth_string. now apply (C15_round_trip authNames authNames). }
  split; [apply (one_back en pad _ AuthMethod REq _ E1)|apply (one_back en pad _ AuthMethod RNe _ E2)]; (reflexivity || exact A).
Qed.

(* strength factors, whatever was set, with each of the six operators *)
Lemma itoa_clean n : (n <= 256)%N -> settled (itoa n).
Proof.
  intros H. assert (L : (n < N.of_nat 257)%N) by lia. apply clean_settled.
  - assert (X := upto_forall (fun n => negb (String.eqb (itoa n) "")) 257 ltac:(vm_compute; reflexivity) n L). cbv beta in X.
    intros E. rewrite E in X. discriminate.
  - apply all_bytes_chars. exact (upto_forall (fun n => all_bytes clean_byte (itoa n)) 257 ltac:(vm_compute; reflexivity) n L).
Qed.
Theorem C123_strength : forall en pad s, Permutation (e_auth en) authNames ->
  (forall v, s = Some (Some v) -> (v < 256)%N) ->
  bind_back en (ssf_Eq pad s) /\ bind_back en (ssf_Ne pad s) /\ bind_back en (ssf_Lt pad s) /\
  bind_back en (ssf_Le pad s) /\ bind_back en (ssf_Gt pad s) /\ bind_back en (ssf_Ge pad s).
Proof.
  intros en pad s P W. assert (W' : ssf_wf s) by (destruct s as [[v|]|]; [now apply W|exact I|exact I]).
  destruct (ssf_string_num s W') as [T L].
  assert (A : again en StrengthFactor [ssf_string s]).
  { rewrite T. apply again_single; [exact P|reflexivity|discriminate|apply itoa_clean; lia|]. exists (Z.to_N (ssf_num s)). split; [lia|reflexivity]. }
  destruct (C71_strength_factor pad s) as (E1 & E2 & E3 & E4 & E5 & E6).
  split; [exact (one_back en pad _ StrengthFactor REq _ E1 eq_refl A)|].
  split; [exact (one_back en pad _ StrengthFactor RNe _ E2 eq_refl A)|].
  split; [exact (one_back en pad _ StrengthFactor RLt _ E3 eq_refl A)|].
  split; [exact (one_back en pad _ StrengthFactor RLe _ E4 eq_refl A)|].
  split; [exact (one_back en pad _ StrengthFactor RGt _ E5 eq_refl A)|exact (one_back en pad _ StrengthFactor RGe _ E6 eq_refl A)].
Qed.

(* times of day, whatever they were made from, with each of the six operators *)
Lemma clock_clean t : is_clock t -> settled t.
Proof.
  intros (h & m & [[H1 H2]|[-> ->]] & ->); [|apply clean_settled; [discriminate|apply all_bytes_chars; reflexivity]]. apply clean_settled; [discriminate|].
  apply all_bytes_chars. exact (upto2_forall (fun h m => all_bytes clean_byte (clock_text h m)) 24 60 ltac:(vm_compute; reflexivity) h m H1 H2).
Qed.
Lemma tod_clock args : (forall z h m, In (TTime z h m) args -> (h < 24 /\ m < 60)%N) -> is_clock (tod_string (ToD args)).
Proof.
  assert (Z : is_clock "0000") by (exists 0%N, 0%N; split; [left; lia|reflexivity]).
  assert (S : forall s, is_clock (fmt04d (assertToD_str 0 s))).
  { intros s. destruct (is_clock_dec s) as [(h & m & C & ->)|N].
    - rewrite (clock_ok h m C), (clock_print h m C). now exists h, m.
    - rewrite (not_clock_zero s 0 N). exact Z. }
  intros H. destruct args as [|[z h m|s|] args]; [exact Z| |apply S|exact Z].
  cbn [ToD assertToD tod_string]. destruct z; [exact Z|apply S].
Qed.
Theorem C123_time : forall en pad args, Permutation (e_auth en) authNames ->
  (forall z h m, In (TTime z h m) args -> (h < 24 /\ m < 60)%N) ->
  let t := ToD args in
  bind_back en (tod_Eq pad t) /\ bind_back en (tod_Ne pad t) /\ bind_back en (tod_Lt pad t) /\
  bind_back en (tod_Le pad t) /\ bind_back en (tod_Gt pad t) /\ bind_back en (tod_Ge pad t).
Proof.
  intros en pad args P H t. assert (C := tod_clock args H). fold t in C.
  assert (A : again en TimeOfDay [tod_string t]) by (apply again_single; [exact P|reflexivity|discriminate|now apply clock_clean|exact C]).
  destruct (proj1 (C71_time_of_day pad t) ltac:(destruct args; discriminate)) as (E1 & E2 & E3 & E4 & E5 & E6).
  split; [exact (one_back en pad _ TimeOfDay REq _ E1 eq_refl A)|].
  split; [exact (one_back en pad _ TimeOfDay RNe _ E2 eq_refl A)|].
  split; [exact (one_back en pad _ TimeOfDay RLt _ E3 eq_refl A)|].
  split; [exact (one_back en pad _ TimeOfDay RLe _ E4 eq_refl A)|].
  split; [exact (one_back en pad _ TimeOfDay RGt _ E5 eq_refl A)|exact (one_back en pad _ TimeOfDay RGe _ E6 eq_refl A)].
Qed.

(* days of the week, whatever was shifted in and out *)
Theorem C123_days : forall en pad h, shifty_ok (e_shifty en) -> dcalls_ok h ->
  (exists d, day_in false h d = true) ->
  let d := dow_run (e_shifty en) None h in
  bind_back en (dow_Eq (e_shifty en) pad d) /\ bind_back en (dow_Ne (e_shifty en) pad d).
Proof.
  intros en pad h OK H X d. assert (NE : filter (day_in false h) all_days <> []).
  { destruct X as [x X]. intros E. assert (I : In x (filter (day_in false h) all_days)) by (apply filter_In; split; [destruct x; cbn; tauto|exact X]). rewrite E in I. exact I. }
  assert (T := C10_text (e_shifty en) OK h H NE). assert (RT := C10_round_trip (e_shifty en) OK h H X). fold d in T, RT.
  assert (S : settled (dow_string (e_shifty en) d)).
  { rewrite T. clear -NE. apply clean_settled.
    - destruct (filter (day_in false h) all_days) as [|x [|y l]]; [easy|now destruct x|]. cbn [map]. rewrite join_cons. now destruct x.
    - intros c I. apply chars_in_join in I as [[<-|[]]|(x & X & I)]; [reflexivity|]. apply in_map_iff in X as (y & <- & _).
      revert c I. apply all_bytes_chars. now destruct y. }
  assert (V : dow_valid (e_shifty en) d = true).
  { assert (F : dow_string (e_shifty en) d <> badDoW) by (rewrite T; destruct (filter (day_in false h) all_days) as [|x [|y l]]; [easy|now destruct x|]; cbn [map]; rewrite join_cons; now destruct x).
    destruct d as [n|] eqn:D; [|now destruct F]. cbn [dow_valid]. now apply negb_true_iff, String.eqb_neq. }
  assert (A : again en DayOfWeek [dow_string (e_shifty en) d]).
  { intros c style K Z. cbn [join]. apply (bind_text en c DayOfWeek); [rewrite K; apply same_kw|].
    change (assert_bind en (bindkw_const DayOfWeek) [?v]) with
      (of_opt (fun d => XText (dow_string (e_shifty en) d)) (parseDoW (e_shifty en) (unquote (condenseWHSP v)))).
    rewrite (settled_read _ S), RT. reflexivity. }
  destruct (proj1 (C71_day_of_week (e_shifty en) pad d) V) as [E1 E2].
  split; [exact (one_back en pad _ DayOfWeek REq _ E1 eq_refl A)|exact (one_back en pad _ DayOfWeek RNe _ E2 eq_refl A)].
Qed.

(* names of users, roles and groups *)
Lemma plain_accepted t : plain_name t -> dn_accepted t.
Proof.
  intros (_ & _ & L & _ & A). split; [exact L|]. destruct (no_byte "=" t) eqn:E; [right; intros a Ha; now apply A|left].
  unfold contains_byte. destruct (in_dec Ascii.ascii_dec "="%char (chars t)) as [I|N]; [exact I|]. apply no_byte_chars in N. congruence.
Qed.
Lemma unquote_len s : (String.length s <= String.length (unquote s) + 2)%nat.
Proof.
  unfold unquote. destruct (String.length s <=? 2)%nat; [lia|]. cbv zeta.
  assert (D : forall u, (String.length u <= String.length (match last_byte u with Some c => if is_quote c then drop_last u else u | None => u end) + 1)%nat).
  { intros u. destruct (last_byte u) as [d|] eqn:D; [|lia]. destruct (is_quote d); [|lia]. apply last_split in D as [v ->]. rewrite drop_last_app, length_app. cbn. lia. }
  destruct s as [|c r]; [cbn; lia|]. destruct (is_quote c); [specialize (D r); cbn [String.length]; lia|specialize (D (String c r)); lia].
Qed.
Lemma plain_chop t : plain_name t -> chopDNPfx (condenseWHSP ("ldap:///" ++ t)) = t /\ chopDNPfx t = t.
Proof.
  intros (S & _ & _ & P & _). rewrite (kept_condense _ S). split; [apply (chop_scheme t)|]. unfold chopDNPfx, LocalScheme. now rewrite P.
Qed.
Lemma scheme_bar t : no_byte "|" t = true -> no_byte "|" ("ldap:///" ++ t) = true.
Proof. intros H. exact H. Qed.
Lemma names_again en k ts : e_eqf en = eqfold -> In k [UserDN; RoleDN; GroupDN] -> ts <> [] ->
  (forall t, In t ts -> plain_name t /\ no_byte "?" t = true) -> distinct_by eqfold (map (append "ldap:///") ts) ->
  again en k (map (append "ldap:///") ts).
Proof.
  intros F I N H D c style K Z. destruct ts as [|t0 ts]; [easy|]. cbn [map].
  destruct (C98_names en c k style ("ldap:///" ++ t0) (map (append "ldap:///") ts) F I ltac:(rewrite K; apply same_kw)) as [R _].
  assert (NQ : forall t, In t (t0 :: ts) -> scontains "?" ("ldap:///" ++ t) = false).
  { intros t T. destruct (H t T) as [_ Q]. change "?" with (String "?" ""). apply not_true_is_false. rewrite contains1. apply no_byte_chars. exact Q. }
  assert (SH : map (name_shown (uri_text (bindkw_const k))) (("ldap:///" ++ t0) :: map (append "ldap:///") ts) = map (append "ldap:///") (t0 :: ts)).
  { change (("ldap:///" ++ t0) :: map (append "ldap:///") ts) with (map (append "ldap:///") (t0 :: ts)). rewrite map_map. apply map_ext_in. intros t T.
    unfold name_shown. rewrite (NQ t T), andb_false_r. destruct (plain_chop t (proj1 (H t T))) as [E1 E2]. now rewrite E1, E2. }
  rewrite SH, outer_line in R by exact Z. rewrite (firsts_distinct eqfold _ []) in R by exact D. apply R. split.
  - destruct (H t0 (or_introl eq_refl)) as [PL _]. rewrite (kept_condense _ (proj1 PL)).
    assert (U := unquote_len ("ldap:///" ++ t0)). rewrite length_app in U. change (String.length "ldap:///") with 8%nat in U. lia.
  - change (("ldap:///" ++ t0) :: map (append "ldap:///") ts) with (map (append "ldap:///") (t0 :: ts)). intros v V. apply in_map_iff in V as (t & <- & T).
    unfold bind_value_ok. rewrite (NQ t T), andb_false_r. destruct (H t T) as [PL Q]. rewrite (proj1 (plain_chop t PL)). split; [now apply plain_accepted|].
    unfold contains_byte. now apply no_byte_chars.
Qed.
Definition dn_member (kw : N) (t : string) : dmember := MDN (Some (MkDN kw (Some t))).
Lemma shown_members bad kw ts : map (dmember_string bad) (map (dn_member kw) ts) = map (append "ldap:///") ts.
Proof. rewrite map_map. reflexivity. Qed.
Theorem C123_names : forall en pad k ts, e_eqf en = eqfold -> In k [UserDN; RoleDN; GroupDN] -> ts <> [] ->
  (forall t, In t ts -> plain_name t /\ no_byte "?" t = true) -> distinct_by eqfold (map (append "ldap:///") ts) ->
  let l := Some (bindkw_const k, map (dn_member (bindkw_const k)) ts) in
  bind_back en (bdns_Eq pad l) /\ bind_back en (bdns_Ne pad l).
Proof.
  intros en pad k ts F I N H D l. assert (A := names_again en k ts F I N H D).
  assert (C : cut (bind_many k) (map (append "ldap:///") ts)).
  { replace (bind_many k) with true by (destruct I as [<-|[<-|[<-|[]]]]; reflexivity). split; [now destruct ts|].
    intros v V. apply in_map_iff in V as (t & <- & T). apply (H t T). }
  destruct (proj1 (C71_bind_dns pad) k (map (dn_member (bindkw_const k)) ts) I) as [E1 E2]. rewrite shown_members in E1, E2. 
  split; [exact (back en pad _ k REq _ E1 C A)|exact (back en pad _ k RNe _ E2 C A)].
Qed.
(* lists built by Push hold no name twice *)
Theorem C123_names_pushed : forall en pad k init h ts, e_eqf en = eqfold -> In k [UserDN; RoleDN; GroupDN] -> ts <> [] ->
  dn_run eqfold badBDN true (bindkw_const k) init h = map (dn_member (bindkw_const k)) ts ->
  (forall t, In t ts -> plain_name t /\ no_byte "?" t = true) ->
  let l := Some (bindkw_const k, dn_run eqfold badBDN true (bindkw_const k) init h) in
  bind_back en (bdns_Eq pad l) /\ bind_back en (bdns_Ne pad l).
Proof.
  intros en pad k init h ts F I N R H l. unfold l. rewrite R. apply C123_names; try assumption.
  assert (D := C27_distinct eqfold badBDN true (bindkw_const k) init h). cbv zeta in D. rewrite R in D. clear -D.
  unfold distinct_by in *. induction ts as [|t ts IH]; [constructor|]. cbn [map] in *. inversion D as [|? ? A B]; subst. constructor; [|now apply IH].
  rewrite Forall_forall in *. intros y Y. apply in_map_iff in Y as (u & <- & U). apply (A (dn_member (bindkw_const k) u)). now apply in_map.
Qed.
(* one name, as its three constructors make it *)
Theorem C123_name : forall en pad x, e_eqf en = eqfold -> x <> "" -> plain_name (chopDNPfx x) -> no_byte "?" (chopDNPfx x) = true ->
  (bind_back en (bdn_Eq pad (UDN x)) /\ bind_back en (bdn_Ne pad (UDN x))) /\
  (bind_back en (bdn_Eq pad (RDN x)) /\ bind_back en (bdn_Ne pad (RDN x))) /\
  (bind_back en (bdn_Eq pad (GDN x)) /\ bind_back en (bdn_Ne pad (GDN x))).
Proof.
  intros en pad x F N P Q. set (t := chopDNPfx x) in *.
  assert (A : forall k, In k [UserDN; RoleDN; GroupDN] -> again en k ["ldap:///" ++ t] /\ cut (bind_many k) ["ldap:///" ++ t]).
  { intros k I. split.
    - apply (names_again en k [t] F I); [discriminate|intros u [<-|[]]; now split|]. constructor; constructor.
    - replace (bind_many k) with true by (destruct I as [<-|[<-|[<-|[]]]]; reflexivity). split; [discriminate|]. intros v [<-|[]]. apply P. }
  destruct (C71_bind_dn_made pad x N) as ([E1 E2] & [E3 E4] & [E5 E6]). fold t in E1, E2, E3, E4, E5, E6.
  destruct (A UserDN ltac:(cbn; tauto)) as [A1 C1]. destruct (A RoleDN ltac:(cbn; tauto)) as [A2 C2]. destruct (A GroupDN ltac:(cbn; tauto)) as [A3 C3].
  split; [|split]; split.
  - exact (back en pad _ UserDN REq [_] E1 C1 A1).
  - exact (back en pad _ UserDN RNe [_] E2 C1 A1).
  - exact (back en pad _ RoleDN REq [_] E3 C2 A2).
  - exact (back en pad _ RoleDN RNe [_] E4 C2 A2).
  - exact (back en pad _ GroupDN REq [_] E5 C3 A3).
  - exact (back en pad _ GroupDN RNe [_] E6 C3 A3).
Qed.

(* attribute and value, without and with levels of inheritance *)
Lemma prefix_before p a x : no_byte "#" p = true -> has_prefix p (a ++ String "#" x) = true -> forall c, In c (chars p) -> In c (chars a).
Proof.
  revert a. induction p as [|d p IH]; intros a N H c I; [destruct I|]. apply no_byte_chars in N.
  destruct a as [|e a]; cbn [append has_prefix] in H; apply andb_true_iff in H as [E H]; apply Ascii.eqb_eq in E; subst.
  - exfalso. apply N. now left.
  - destruct I as [<-|I]; [now left|]. right. apply (IH a); [|exact H|exact I]. apply no_byte_chars. intros X. apply N. now right.
Qed.
Lemma name_no_prefix a x p d : attr_name a -> no_byte "#" p = true -> In d (chars p) -> name_byte d = false -> d <> "*"%char ->
  has_prefix p (a ++ "#" ++ x) = false.
Proof.
  intros A N I B S. destruct (has_prefix p (a ++ "#" ++ x)) eqn:E; [|reflexivity]. assert (X := prefix_before p a x N E d I). exfalso.
  destruct A as [(_ & _ & A)| ->]; [rewrite (A d X) in B; discriminate|]. destruct X as [<-|[]]. now destruct S.
Qed.
Lemma attr_again en k a w : In k [UserAttr; GroupAttr] -> attr_name a -> what_ok w -> settled (a ++ "#" ++ what_text w) ->
  again en k [a ++ "#" ++ what_text w].
Proof.
  intros I A W S c style K Z. change (join " || " [?t]) with t.
  assert (E := attr_reader en k (a ++ "#" ++ what_text w) I). cbv zeta in E. rewrite (settled_read _ S) in E.
  apply (bind_text en c k); [rewrite K; apply same_kw|]. rewrite E.
  rewrite (name_no_prefix a (what_text w) "ldap:///" ":" A), (name_no_prefix a (what_text w) "parent[" "[" A); try reflexivity; try discriminate; try (cbn; tauto).
  assert (KK : bindkw_const k = BindUAT \/ bindkw_const k = BindGAT) by (destruct I as [<-|[<-|[]]]; [left|right]; reflexivity).
  destruct (C23_round_trip (bindkw_const k) a w KK A W) as [T1 T2]. rewrite T2. unfold avbt_s. now rewrite T1.
Qed.
Theorem C123_attr : forall en pad fmt k a w, In k [UserAttr; GroupAttr] -> attr_name a -> what_ok w -> settled (a ++ "#" ++ what_text w) ->
  let p := MkABTV (bindkw_const k) (Some (pair_of a w)) in
  bind_back en (abtv_Eq pad fmt p) /\ bind_back en (abtv_Ne pad fmt p).
Proof.
  intros en pad fmt k a w I A W S p.
  assert (KK : bindkw_const k = BindUAT \/ bindkw_const k = BindGAT) by (destruct I as [<-|[<-|[]]]; [left|right]; reflexivity).
  destruct (C23_round_trip (bindkw_const k) a w KK A W) as [T1 _].
  destruct (proj1 (C72_partial pad fmt p) k (pair_of a w) _ I eq_refl ltac:(discriminate) T1) as (_ & E1 & E2).
  assert (M : bind_many k = false) by (destruct I as [<-|[<-|[]]]; reflexivity). assert (G := attr_again en k a w I A W S).
  split; [exact (one_back en pad _ k REq _ E1 M G)|exact (one_back en pad _ k RNe _ E2 M G)].
Qed.
Lemma settled_front p t : t <> "" -> (forall c, In c (chars p) -> clean_byte c = true) -> settled t -> settled (p ++ t).
Proof.
  intros N H S. induction p as [|c p IH]; [exact S|]. cbn [append].
  assert (IH' := IH (fun d I => H d (or_intror I))). clear IH. assert (Hc := H c (or_introl eq_refl)). clear H.
  unfold clean_byte in Hc. apply andb_true_iff in Hc as [Hc Q]. apply andb_true_iff in Hc as [A B]. apply negb_true_iff in B, Q.
  assert (N' : p ++ t <> "") by (destruct p; [exact N|discriminate]). clear N S. revert N' IH'. generalize (p ++ t) as u. clear p t. intros u N (S1 & S2 & S3 & S4).
  destruct u as [|d u]; [easy|]. split; [|split; [|split]].
  - unfold is_ascii in *. cbn [all_bytes] in *. now rewrite A.
  - assert (D : blank d = false) by (apply nonwhite_nonblank; now apply S3). rewrite (words_solid c _ (nonwhite_nonblank c B)), D.
    destruct (words (String d u)) as [|w ws]; [discriminate S2|]. rewrite <- S2. destruct ws; reflexivity.
  - intros e [= <-]. now split.
  - intros e E. apply S4. exact E.
Qed.
Theorem C123_levels : forall en pad fmt k a w init h, shifty_ok (e_shifty en) -> In k [UserAttr; GroupAttr] -> attr_name a -> what_ok w ->
  lcalls_ok (IShift init :: h) -> (exists n, (n < 10)%N /\ level_in false (IShift init :: h) n = true) ->
  settled (a ++ "#" ++ what_text w) ->
  let i := inh_run (e_shifty en) (Inherit (e_shifty en) (MkABTV (bindkw_const k) (Some (pair_of a w))) init) h in
  bind_back en (inh_Eq (e_shifty en) pad fmt i) /\ bind_back en (inh_Ne (e_shifty en) pad fmt i).
Proof.
  intros en pad fmt k a w init h OK I A W L NE S0 i.
  assert (S : settled ("]." ++ a ++ "#" ++ what_text w)).
  { apply settled_front; [destruct a; discriminate|apply all_bytes_chars; reflexivity|exact S0]. }
  assert (KK : bindkw_const k = BindUAT \/ bindkw_const k = BindGAT) by (destruct I as [<-|[<-|[]]]; [left|right]; reflexivity).
  assert (RT := fun fp => C06_round_trip (e_shifty en) OK fp (bindkw_const k) a w init h KK A W L NE). cbv zeta in RT. fold i in RT.
  destruct (RT fmt) as (T & _). destruct (RT fmt_panic) as (T' & j & J1 & _ & _ & J2).
  set (txt := "parent[" ++ join "," (map digit (filter (level_in false (IShift init :: h)) all_levels)) ++ "]." ++ a ++ "#" ++ what_text w) in *.
  assert (ST : settled txt).
  { unfold txt. change ("parent[" ++ ?x) with ("parent[" ++ x). rewrite <- app_assoc'. apply settled_front; [discriminate| |exact S].
    intros c Hc. rewrite chars_app in Hc. apply in_app_iff in Hc as [Hc|Hc]; [revert c Hc; apply all_bytes_chars; reflexivity|].
    apply chars_in_join in Hc as [[<-|[]]|(x & X & Hc)]; [reflexivity|]. apply in_map_iff in X as (n & <- & X). apply filter_In in X as [X _].
    revert c Hc. apply all_bytes_chars. unfold all_levels in X. cbn [In] in X. repeat destruct X as [<-|X]; try reflexivity. destruct X. }
  assert (G : again en k [txt]).
  { intros c style K Z. change (join " || " [?t]) with t. apply (bind_text en c k); [rewrite K; apply same_kw|].
    assert (E := attr_reader en k txt I). cbv zeta in E. rewrite (settled_read _ ST) in E. rewrite E.
    replace (has_prefix "ldap:///" txt) with false by reflexivity. replace (has_prefix "parent[" txt) with true by reflexivity.
    rewrite T' in J1, J2. rewrite J1, J2. reflexivity. }
  assert (X : exists lv, i = Some (MkInh lv (MkABTV (bindkw_const k) (Some (pair_of a w))))).
  { assert (Za : abtv_isZero (MkABTV (bindkw_const k) (Some (pair_of a w))) = false) by (destruct KK as [E|E]; rewrite E; reflexivity).
    destruct (lrun (e_shifty en) OK (IShift init :: h) (MkABTV (bindkw_const k) (Some (pair_of a w))) 0%N (fun _ => false) Za) as (v & Ev & _); [split; easy|intros; apply N.bits_0|exact L|].
    exists v. rewrite <- Ev. unfold i. set (ab := MkABTV (bindkw_const k) (Some (pair_of a w))) in *.
    change (inh_run (e_shifty en) (Some (MkInh 0 ab)) (IShift init :: h)) with (inh_run (e_shifty en) (inh_shift (e_shifty en) (Some (MkInh 0 ab)) init) h).
    unfold inh_shift. cbn [in_abtv]. now rewrite Za. }
  destruct X as [lv X].
  destruct (proj1 (C71_inheritance (e_shifty en) pad fmt i) k lv (pair_of a w) I X) as [E1 E2]. rewrite T in E1, E2.
  assert (M : bind_many k = false) by (destruct I as [<-|[<-|[]]]; reflexivity).
  split; [exact (one_back en pad _ k REq _ E1 M G)|exact (one_back en pad _ k RNe _ E2 M G)].
Qed.

(* LDAP URIs with a filter, with a scope only, and with an attribute and value *)
Lemma uri_name_again en k t u : e_eqf en = eqfold -> In k [UserDN; RoleDN; GroupDN] -> settled t -> has_prefix "ldap:///" t = true -> scontains "?" t = true ->
  parseLDAPURI t [bindkw_const k] = Some u -> uri_string u = t -> again en k [t].
Proof.
  intros F I S P Q U T c style K Z. change (join " || " [?t]) with t.
  destruct (C98_names en c k style t [] F I ltac:(rewrite K; apply same_kw)) as [R _].
  assert (E : MConv.uri_text (bindkw_const k) t = Some t) by (unfold MConv.uri_text; now rewrite U, T).
  rewrite outer_line in R by exact Z. cbn [map] in R. unfold name_shown in R. rewrite P, Q, E in R. cbn [andb firsts_by existsb join] in R. apply R. split.
  - rewrite (settled_read t S). apply has_prefix_spec in P as [x ->]. rewrite length_app. cbn. lia.
  - intros v [<-|[]]. unfold bind_value_ok. rewrite P, Q, E. discriminate.
Qed.
Lemma qmark_in a b : scontains "?" (a ++ String "?" b) = true.
Proof. change "?" with (String "?" ""). apply contains1. rewrite chars_app. apply in_or_app. right. now left. Qed.
Theorem C123_uri_search : forall en pad d names n f, e_eqf en = eqfold ->
  SUri.uri_dn d -> (forall x, In x names -> attr_name x) -> In n [BaseObject; SingleLevel; Subtree] -> f <> "" -> ~ SUri.has_char "?" f ->
  let u := URI [UDn (UDN d); UAttrs (map AT names); UScope n; UFilter (Filter [f])] in
  settled (uri_string u) -> no_byte "|" (uri_string u) = true ->
  bind_back en (uri_Eq pad u) /\ bind_back en (uri_Ne pad u).
Proof.
  intros en pad d names n f F D A N NF Q u S B.
  destruct (TUri.C35_search_form d names n f [bindkw_const UserDN] D A N NF Q) as [T P]. cbv zeta in T, P. fold u in T, P.
  assert (UD : u_dn u = UDN d) by reflexivity. assert (UA : u_avbt u = abtv_zero) by reflexivity.
  assert (ND : exists x, UDN d = Some (MkDN BindUDN (Some x))) by (destruct d; [now destruct (proj1 D)|eexists; reflexivity]). destruct ND as [x ND].
  assert (UK : TTab.uri_kind u (u_dn u) = UserDN) by (unfold TTab.uri_kind; rewrite UA, UD, ND; reflexivity).
  destruct (proj1 (TTab.C71_uri pad u)) as [E1 E2]; [rewrite UD, ND; reflexivity|]. rewrite UK in E1, E2.
  assert (G : again en UserDN [uri_string u]).
  { apply (uri_name_again en UserDN _ u F); [now left|exact S| | |exact P|reflexivity].
    - rewrite T. reflexivity.
    - rewrite T. rewrite <- (app_assoc' "ldap:///" d). apply qmark_in. }
  assert (C : cut (bind_many UserDN) [uri_string u]) by (split; [discriminate|intros v [<-|[]]; exact B]).
  split; [exact (back en pad _ UserDN REq [_] E1 C G)|exact (back en pad _ UserDN RNe [_] E2 C G)].
Qed.
Theorem C123_uri_plain : forall en pad d n, e_eqf en = eqfold -> SUri.uri_dn d -> In n [BaseObject; SingleLevel; Subtree] ->
  let u := URI [UDn (UDN d); UScope n] in
  settled (uri_string u) -> no_byte "|" (uri_string u) = true ->
  bind_back en (uri_Eq pad u) /\ bind_back en (uri_Ne pad u).
Proof.
  intros en pad d n F D N u S B.
  destruct (TUri.C35_plain_form d n [bindkw_const UserDN] D N) as (T & u' & P & T' & _). cbv zeta in T, P, T'. fold u in T, P, T'.
  assert (UD : u_dn u = UDN d) by reflexivity. assert (UA : u_avbt u = abtv_zero) by reflexivity.
  assert (ND : exists x, UDN d = Some (MkDN BindUDN (Some x))) by (destruct d; [now destruct (proj1 D)|eexists; reflexivity]). destruct ND as [x ND].
  assert (UK : TTab.uri_kind u (u_dn u) = UserDN) by (unfold TTab.uri_kind; rewrite UA, UD, ND; reflexivity).
  destruct (proj1 (TTab.C71_uri pad u)) as [E1 E2]; [rewrite UD, ND; reflexivity|]. rewrite UK in E1, E2.
  assert (G : again en UserDN [uri_string u]).
  { apply (uri_name_again en UserDN _ u' F); [now left|exact S| | |exact P|exact T'].
    - rewrite T. reflexivity.
    - rewrite T. rewrite <- (app_assoc' "ldap:///" d). apply qmark_in. }
  assert (C : cut (bind_many UserDN) [uri_string u]) by (split; [discriminate|intros v [<-|[]]; exact B]).
  split; [exact (back en pad _ UserDN REq [_] E1 C G)|exact (back en pad _ UserDN RNe [_] E2 C G)].
Qed.
Theorem C123_uri_value : forall en pad d a w, SUri.uri_dn d -> attr_name a -> what_ok w -> ~ SUri.has_char "?" (what_text w) ->
  let u := URI [UDn (UDN d); UAvbt (UAT [BStr a; BStr (what_text w)])] in
  settled (uri_string u) ->
  bind_back en (uri_Eq pad u) /\ bind_back en (uri_Ne pad u).
Proof.
  intros en pad d a w D A W Q u S.
  destruct (TUri.C35_attr_value_form d a w D A W Q) as (T & _). cbv zeta in T. fold u in T.
  assert (UD : u_dn u = UDN d) by reflexivity.
  assert (UA : u_avbt u = MkABTV BindUAT (Some (pair_of a w))).
  { unfold u, URI. cbn [uri_set uri_new u_dn u_scope u_avbt u_attrs u_filter]. unfold UAT, userOrGroupAttr, pair_set, pair_nil. cbn [fold_left pair_set1]. rewrite (AT_name a A).
    assert (R := what_read w W). destruct (matchBT (what_text w) =? 0)%N; cbn [negb] in R; rewrite R; reflexivity. }
  assert (ND : exists x, UDN d = Some (MkDN BindUDN (Some x))) by (destruct d; [now destruct (proj1 D)|eexists; reflexivity]). destruct ND as [x ND].
  assert (UK : TTab.uri_kind u (u_dn u) = UserAttr) by (unfold TTab.uri_kind; rewrite UA; reflexivity).
  destruct (proj1 (TTab.C71_uri pad u)) as [E1 E2]; [rewrite UD, ND; reflexivity|]. rewrite UK in E1, E2.
  assert (TT : uri_string u = SUri.uri_text [d; a ++ "#" ++ what_text w]) by exact T.
  assert (CO : SUri.components_ok [d; a ++ "#" ++ what_text w]).
  { split; [discriminate|]. intros c [<-|[<-|[]]]; [apply D|]. unfold SUri.has_char in *. rewrite !chars_app, !in_app_iff. intros [X|[X|X]].
    - destruct A as [(_ & _ & A)| ->]; [specialize (A _ X); discriminate A|]. destruct X as [X|[]]. discriminate X.
    - destruct X as [X|[]]. discriminate X.
    - exact (Q X). }
  assert (PR : exists u', parseLDAPURI (uri_string u) [bindkw_const UserAttr] = Some u').
  { rewrite TT. apply (TUri.C35_accepted _ [bindkw_const UserAttr] CO). intros _. now exists a, (what_text w). }
  destruct PR as [u' PR].
  assert (T' : uri_string u' = uri_string u).
  { rewrite TT. rewrite TT in PR. rewrite (TUri.C36_exact_value _ _ u' a (what_text w) CO PR ltac:(apply D) eq_refl eq_refl A).
    f_equal. f_equal; [|f_equal].
    - exact (TUri.dn_printed_id d D).
    - destruct w as [m|v]; cbn [what_ok what_text] in *.
      + assert (E : matchBT (bt_string m) = m) by (assert (M : (m = 1 \/ m = 2 \/ m = 3 \/ m = 4 \/ m = 5)%N) by lia; destruct M as [->|[->|[->|[->| ->]]]]; reflexivity).
        rewrite E. destruct W as [W1 _]. apply N.leb_le in W1. now rewrite W1.
      + destruct W as [W1 W2]. rewrite W2. cbn. destruct (String.eqb_spec v ""); [easy|reflexivity]. }
  assert (G : again en UserAttr [uri_string u]).
  { intros c style K Z. change (join " || " [?t]) with t. destruct (C98_attr_uri en c UserAttr style (uri_string u)) as [R _]; [now left|rewrite K; apply same_kw|rewrite (settled_read _ S), T; reflexivity|].
    rewrite (settled_read _ S) in R. rewrite <- T'. rewrite T'. apply (R u') in PR. now rewrite T' in PR. }
  split; [exact (one_back en pad _ UserAttr REq _ E1 eq_refl G)|exact (one_back en pad _ UserAttr RNe _ E2 eq_refl G)].
Qed.

(* ---- C124: target rules ---- *)
Theorem C124_scope : forall en pad s, target_back en (scope_Eq pad (scope_const s)).
Proof.
  intros en pad s. assert (E := proj1 (C71_scope pad (scope_const s)) ltac:(destruct s; discriminate)).
  apply (one_tback en pad _ TgScope REq _ E eq_refl). intros c style K Z. change (join " || " [?t]) with t.
  destruct (C98_scope en c style (scope_string (scope_const s))) as [R _]; [rewrite K; apply same_kw|].
  assert (U : unquote (condenseWHSP (scope_string (scope_const s))) = scope_string (scope_const s)) by (destruct s; vm_compute; reflexivity). rewrite U in R.
  replace (scope_string (scope_const s)) with (scope_shown s) at 2 by (destruct s; reflexivity). apply R. apply C16_target_name.
Qed.

(* search filters *)
Theorem C124_filter : forall en pad f, settled f -> f <> "" ->
  (target_back en (sf_Eq pad (Some f)) <-> (3 <= String.length f)%nat) /\ (target_back en (sf_Ne pad (Some f)) <-> (3 <= String.length f)%nat).
Proof.
  intros en pad f S N. destruct (proj1 (C71_search_filter pad) f N) as [E1 E2].
  assert (C : cut (target_many TgFilter) [f]) by now exists f.
  assert (R := fun c style (K : c_kw c = targetkw_name TgFilter) => C98_filter en c style [f] ltac:(rewrite K; apply same_kw)).
  assert (Y : (3 <= String.length f)%nat -> tagain en TgFilter [f]).
  { intros L c style K Z. change (join " || " [?t]) with t. destruct (R c style K) as [A _]. specialize (A f eq_refl). rewrite (settled_read f S) in A. now apply A. }
  assert (X : (String.length f < 3)%nat -> tnever en TgFilter [f]).
  { intros L c style K Z. left. destruct (R c style K) as [_ A]. apply A. intros v [= <-]. now rewrite (settled_read f S). }
  split; (split; [intros B; destruct (Nat.le_gt_cases 3 (String.length f)) as [L|L]; [exact L|exfalso]|intros L]).
  - exact (tlost en pad _ TgFilter REq [f] E1 C (X L) B).
  - exact (tback en pad _ TgFilter REq [f] E1 C (Y L)).
  - exact (tlost en pad _ TgFilter RNe [f] E2 C (X L) B).
  - exact (tback en pad _ TgFilter RNe [f] E2 C (Y L)).
Qed.

(* attributes: exactly when all of them are the first one, and that is ASCII *)
Lemma name_fine a c : attr_name a -> In c (chars a) -> fine_byte c = true.
Proof.
  intros A I. assert (B : name_byte c = true \/ c = "*"%char) by (destruct A as [(_ & _ & A)| ->]; [left; now apply A|right; now destruct I as [<-|[]]]).
  destruct B as [B| ->]; [|reflexivity]. clear -B. destruct c as [[] [] [] [] [] [] [] []]; vm_compute in B; try discriminate B; reflexivity.
Qed.
Lemma name_bar a : attr_name a -> no_byte "|" a = true.
Proof. intros A. apply attr_name_no; [exact A|reflexivity|discriminate]. Qed.
Lemma attrs_back en a l : attr_name a -> (forall x, In x l -> attr_name x) ->
  (is_ascii a = true /\ (forall x, In x l -> x = a) -> tagain en TgAttr (a :: l)) /\
  (~ (is_ascii a = true /\ forall x, In x l -> x = a) -> tnever en TgAttr (a :: l)).
Proof.
  intros A L. assert (NE := attr_name_nonempty a A). assert (FR := fine_read a NE (fun c => name_fine a c A)).
  assert (R := fun c style (K : c_kw c = targetkw_name TgAttr) => C98_targetattr en c style a l ltac:(rewrite K; apply same_kw)). rewrite FR in R.
  assert (J : forall b, attr_name b -> join " || " (repeat b (S (List.length l))) = join " || " (a :: l) -> b = a /\ forall x, In x l -> x = a).
  { intros b B E. assert (X : repeat b (S (List.length l)) = a :: l).
    { apply (cut_join true); [split; [discriminate|]|split; [discriminate|]|exact E].
      - intros v V. apply repeat_spec in V as ->. now apply name_bar.
      - intros v [<-|V]; apply name_bar; [exact A|now apply L]. }
    cbn [repeat] in X. injection X as -> X. split; [reflexivity|]. intros x I. rewrite <- X in I. now apply repeat_spec in I. }
  split.
  - intros [AS SAME] c style K Z. destruct (R c style K) as [Y _]. rewrite (reencode_ascii a AS) in Y. specialize (Y A). rewrite outer_line in Y by exact Z.
    replace (a :: l) with (repeat a (S (List.length l))) at 2; [exact Y|]. cbn [repeat]. f_equal. clear -SAME. induction l as [|x l IH]; [reflexivity|].
    cbn. rewrite (SAME x (or_introl eq_refl)). f_equal. apply IH. intros y I. apply SAME. now right.
  - intros NO c style K Z. destruct (R c style K) as (Y & X & _). destruct (AT_iff (reencode a)) as [[_ B]|[_ B]]; [right|left; now apply X].
    specialize (Y B). rewrite outer_line in Y by exact Z. eexists. split; [|exact Y]. intros E. destruct (J _ B E) as [E1 E2]. apply NO. split; [now apply reencode_fix|exact E2].
Qed.
Theorem C124_attributes : forall en pad b a l, attr_name a -> (forall x, In x l -> attr_name x) ->
  let m := Some (b, map (@Some string) (a :: l)) in
  let kept := is_ascii a = true /\ forall x, In x l -> x = a in
  (target_back en (ats_Eq pad m) <-> kept) /\ (target_back en (ats_Ne pad m) <-> kept).
Proof.
  intros en pad b a l A L m kept. destruct (attrs_back en a l A L) as [Y X]. fold kept in Y, X.
  destruct (proj1 (C71_attribute_types pad) b (map (@Some string) (a :: l))) as [E1 E2]. rewrite map_map in E1, E2.
  assert (T : map (fun x => at_string (Some x)) (a :: l) = a :: l) by (rewrite <- (map_id (a :: l)) at 2; apply map_ext; reflexivity).
  rewrite T in E1, E2.
  assert (C : cut (target_many TgAttr) (a :: l)) by (split; [discriminate|intros v [<-|V]; apply name_bar; [exact A|now apply L]]).
  assert (D : kept \/ ~ kept).
  { unfold kept. destruct (is_ascii a); [|right; now intros [? _]]. destruct (Forall_dec (fun x => x = a) (fun x => string_dec x a) l) as [F|F]; rewrite Forall_forall in F; [left; now split|right; now intros [_ G]]. }
  split; (split; [intros B; destruct D as [D|D]; [exact D|exfalso]|intros KP]).
  - exact (tlost en pad _ TgAttr REq _ E1 C (X D) B).
  - exact (tback en pad _ TgAttr REq _ E1 C (Y KP)).
  - exact (tlost en pad _ TgAttr RNe _ E2 C (X D) B).
  - exact (tback en pad _ TgAttr RNe _ E2 C (Y KP)).
Qed.
Theorem C124_attribute : forall en pad a, attr_name a ->
  (target_back en (at_Eq pad (Some a)) <-> is_ascii a = true) /\ (target_back en (at_Ne pad (Some a)) <-> is_ascii a = true).
Proof.
  intros en pad a A. destruct (attrs_back en a [] A ltac:(intros x [])) as [Y X].
  destruct (proj1 (C71_attribute_type pad) a (attr_name_nonempty a A)) as [E1 E2].
  assert (C : cut (target_many TgAttr) [a]) by (split; [discriminate|intros v [<-|[]]; now apply name_bar]).
  split; (split; [intros B; destruct (is_ascii a) eqn:AS; [reflexivity|exfalso]|intros AS]).
  - apply (tlost en pad _ TgAttr REq [a] E1 C); [apply X; now intros [? _]|exact B].
  - apply (tback en pad _ TgAttr REq [a] E1 C). apply Y. split; [exact AS|intros x []].
  - apply (tlost en pad _ TgAttr RNe [a] E2 C); [apply X; now intros [? _]|exact B].
  - apply (tback en pad _ TgAttr RNe [a] E2 C). apply Y. split; [exact AS|intros x []].
Qed.

(* object identifiers *)
Lemma good_all {A} (f : A -> option A) l : (forall x, In x l -> f x = Some x) -> good_prefix f l = l.
Proof. induction l as [|x l IH]; intros H; [reflexivity|]. cbn [good_prefix]. rewrite (H x (or_introl eq_refl)). f_equal. apply IH. intros y I. apply H. now right. Qed.
Lemma oids_again en k ts : In k [TgCtrl; TgExtOp] -> (forall s t, e_dotnot en s = Some t -> t <> "" /\ t <> badDotNot) -> ts <> [] ->
  (forall t, In t ts -> e_dotnot en t = Some t) -> distinct_by (e_eqf en) ts -> tagain en k ts.
Proof.
  intros I D N H DI c style K Z. destruct ts as [|t ts]; [easy|].
  destruct (C98_oid en c k style t ts I ltac:(rewrite K; apply same_kw) D) as [R _]. rewrite outer_line, (good_all _ _ H), (firsts_distinct _ _ []) in R by assumption.
  apply R. rewrite (H t (or_introl eq_refl)). discriminate.
Qed.
Definition oid_member (kw : N) (t : string) : omember := OOid (Some (MkOID kw (Some t))).
Theorem C124_oids : forall en pad k ts, In k [TgCtrl; TgExtOp] -> (forall s t, e_dotnot en s = Some t -> t <> "" /\ t <> badDotNot) -> ts <> [] ->
  (forall t, In t ts -> e_dotnot en t = Some t /\ no_byte "|" t = true) -> distinct_by (e_eqf en) ts ->
  let l := Some (MkOL (targetkw_const k) (map (oid_member (targetkw_const k)) ts)) in
  target_back en (oids_Eq pad l) /\ target_back en (oids_Ne pad l).
Proof.
  intros en pad k ts I D N H DI l. assert (G := oids_again en k ts I D N (fun t T => proj1 (H t T)) DI).
  destruct (proj1 (C71_object_identifiers pad) k (map (oid_member (targetkw_const k)) ts) ltac:(destruct I as [<-|[<-|[]]]; cbn; tauto)) as [E1 E2].
  assert (T : map omember_text (map (oid_member (targetkw_const k)) ts) = ts) by (rewrite map_map; rewrite <- (map_id ts) at 2; apply map_ext; intros t; destruct I as [<-|[<-|[]]]; reflexivity).
  rewrite T in E1, E2.
  assert (C : cut (target_many k) ts) by (replace (target_many k) with true by (destruct I as [<-|[<-|[]]]; reflexivity); split; [exact N|intros v V; now apply H]).
  split; [exact (tback en pad _ k REq _ E1 C G)|exact (tback en pad _ k RNe _ E2 C G)].
Qed.
Theorem C124_oid : forall en pad k t, In k [TgCtrl; TgExtOp] -> (forall s t, e_dotnot en s = Some t -> t <> "" /\ t <> badDotNot) ->
  e_dotnot en t = Some t -> no_byte "|" t = true ->
  let o := Some (MkOID (targetkw_const k) (Some t)) in
  target_back en (oid_Eq pad o) /\ target_back en (oid_Ne pad o).
Proof.
  intros en pad k t I D H B o. assert (G : tagain en k [t]) by (apply (oids_again en k [t] I D); [discriminate|intros u [<-|[]]; exact H|constructor; constructor]).
  destruct (proj1 (C71_object_identifier pad o) k t ltac:(destruct I as [<-|[<-|[]]]; cbn; tauto) eq_refl) as [E1 E2].
  assert (C : cut (target_many k) [t]) by (replace (target_many k) with true by (destruct I as [<-|[<-|[]]]; reflexivity); split; [discriminate|intros v [<-|[]]; exact B]).
  split; [exact (tback en pad _ k REq [t] E1 C G)|exact (tback en pad _ k RNe [t] E2 C G)].
Qed.

(* names of entries *)
Lemma targets_again en k ts : e_eqf en = eqfold -> In k [TgTarget; TgTo; TgFrom] -> ts <> [] ->
  (forall t, In t ts -> plain_name t) -> distinct_by eqfold (map (append "ldap:///") ts) ->
  tagain en k (map (append "ldap:///") ts).
Proof.
  intros F I N H D c style K Z.
  destruct (C98_targets en c k style (map (append "ldap:///") ts) F I ltac:(rewrite K; apply same_kw)) as [R _].
  assert (SH : map target_shown (map (append "ldap:///") ts) = map (append "ldap:///") ts).
  { rewrite map_map. apply map_ext_in. intros t T. unfold target_shown. destruct (plain_chop t (H t T)) as [E1 E2]. now rewrite E1, E2. }
  rewrite SH, outer_line, (firsts_distinct eqfold _ []) in R by assumption. apply R. split.
  - now destruct ts.
  - intros v V. apply in_map_iff in V as (t & <- & T). rewrite (proj1 (plain_chop t (H t T))). now apply plain_accepted, H.
Qed.
Theorem C124_names : forall en pad k ts, e_eqf en = eqfold -> In k [TgTarget; TgTo; TgFrom] -> ts <> [] ->
  (forall t, In t ts -> plain_name t) -> distinct_by eqfold (map (append "ldap:///") ts) ->
  let l := Some (targetkw_const k, map (dn_member (targetkw_const k)) ts) in
  target_back en (tdns_Eq pad l) /\ target_back en (tdns_Ne pad l).
Proof.
  intros en pad k ts F I N H D l. assert (A := targets_again en k ts F I N H D).
  assert (C : cut (target_many k) (map (append "ldap:///") ts)).
  { replace (target_many k) with true by (destruct I as [<-|[<-|[<-|[]]]]; reflexivity). split; [now destruct ts|].
    intros v V. apply in_map_iff in V as (t & <- & T). apply (H t T). }
  destruct (proj1 (C71_target_dns pad) k (map (dn_member (targetkw_const k)) ts) I) as [E1 E2]. rewrite shown_members in E1, E2.
  split; [exact (tback en pad _ k REq _ E1 C A)|exact (tback en pad _ k RNe _ E2 C A)].
Qed.
Theorem C124_names_pushed : forall en pad k init h ts, e_eqf en = eqfold -> In k [TgTarget; TgTo; TgFrom] -> ts <> [] ->
  dn_run eqfold badTDN false (targetkw_const k) init h = map (dn_member (targetkw_const k)) ts ->
  (forall t, In t ts -> plain_name t) ->
  let l := Some (targetkw_const k, dn_run eqfold badTDN false (targetkw_const k) init h) in
  target_back en (tdns_Eq pad l) /\ target_back en (tdns_Ne pad l).
Proof.
  intros en pad k init h ts F I N R H l. unfold l. rewrite R. apply C124_names; try assumption.
  assert (D := C27_distinct eqfold badTDN false (targetkw_const k) init h). cbv zeta in D. rewrite R in D. clear -D.
  unfold distinct_by in *. induction ts as [|t ts IH]; [constructor|]. cbn [map] in *. inversion D as [|? ? A B]; subst. constructor; [|now apply IH].
  rewrite Forall_forall in *. intros y Y. apply in_map_iff in Y as (u & <- & U). apply (A (dn_member (targetkw_const k) u)). now apply in_map.
Qed.
Theorem C124_name : forall en pad x, e_eqf en = eqfold -> x <> "" -> plain_name (chopDNPfx x) ->
  (target_back en (tdn_Eq pad (TDN x)) /\ target_back en (tdn_Ne pad (TDN x))) /\
  (target_back en (tdn_Eq pad (TTDN x)) /\ target_back en (tdn_Ne pad (TTDN x))) /\
  (target_back en (tdn_Eq pad (TFDN x)) /\ target_back en (tdn_Ne pad (TFDN x))).
Proof.
  intros en pad x F N P. set (t := chopDNPfx x) in *.
  assert (A : forall k, In k [TgTarget; TgTo; TgFrom] -> tagain en k ["ldap:///" ++ t] /\ cut (target_many k) ["ldap:///" ++ t]).
  { intros k I. split.
    - apply (targets_again en k [t] F I); [discriminate|intros u [<-|[]]; exact P|]. constructor; constructor.
    - replace (target_many k) with true by (destruct I as [<-|[<-|[<-|[]]]]; reflexivity). split; [discriminate|]. intros v [<-|[]]. apply P. }
  destruct (C71_target_dn_made pad x N) as ([E1 E2] & [E3 E4] & [E5 E6]). fold t in E1, E2, E3, E4, E5, E6.
  destruct (A TgTarget ltac:(cbn; tauto)) as [A1 C1]. destruct (A TgTo ltac:(cbn; tauto)) as [A2 C2]. destruct (A TgFrom ltac:(cbn; tauto)) as [A3 C3].
  split; [|split]; split.
  - exact (tback en pad _ TgTarget REq [_] E1 C1 A1).
  - exact (tback en pad _ TgTarget RNe [_] E2 C1 A1).
  - exact (tback en pad _ TgTo REq [_] E3 C2 A2).
  - exact (tback en pad _ TgTo RNe [_] E4 C2 A2).
  - exact (tback en pad _ TgFrom REq [_] E5 C3 A3).
  - exact (tback en pad _ TgFrom RNe [_] E6 C3 A3).
Qed.

(* attribute filters: exactly when commas are between the operations, or there is one *)
Theorem C124_attrfilters : forall en pad d ops,
  d = ","%char \/ d = ";"%char -> ops <> [] -> NoDup ops -> (forall o, In o ops -> op_ok o) ->
  (forall o i e, In o ops -> In i (snd o) -> e = ","%char \/ e = ";"%char -> ~ In e (chars (fst i)) /\ ~ In e (chars (snd i))) ->
  (forall o i, In o ops -> In i (snd o) -> ~ occurs "add=" (snd i) /\ ~ occurs "delete=" (snd i)) ->
  (target_back en (afos_Eq pad (Some (MkAFOs d (map built_op ops)))) <-> d = ","%char \/ List.length ops = 1%nat).
Proof.
  intros en pad d ops D N ND O F P.
  set (texts := map (fun o => opsym (fst o) ++ "=" ++ join " && " (map item_text (snd o))) ops).
  assert (OK : Forall ok_op ops) by (rewrite Forall_forall; intros o Ho; now apply op_ok_iff, O).
  assert (E : map built_op ops = map mk_op ops) by (apply map_ext_in; intros o Ho; now apply built_op_mk, O).
  assert (T : afos_string (MkAFOs d (map built_op ops)) = join (String d "") texts) by (rewrite E, mk_ops_string by exact OK; reflexivity).
  assert (S := proj1 (proj2 (C71_filter_operations pad)) (MkAFOs d (map built_op ops))). rewrite T in S.
  assert (C : cut (target_many TgAttrFilters) [join (String d "") texts]) by now eexists.
  assert (R := fun c style (K : c_kw c = targetkw_name TgAttrFilters) => C98_attrfilters en c style d ops ltac:(rewrite K; apply same_kw) D N ND O F P). cbv zeta in R. fold texts in R.
  split.
  - intros B. destruct D as [-> | ->]; [now left|right]. destruct ops as [|o1 [|o2 ops]]; [easy|reflexivity|exfalso].
    apply (tlost en pad _ TgAttrFilters REq [_] S C); [|exact B]. intros c style K Z. right. eexists. split; [|exact (R c style K)].
    change (join " || " [?t]) with t. unfold texts. cbn [map]. rewrite !join_cons. intros X. apply app_cancel_l in X. discriminate X.
  - intros B. apply (tback en pad _ TgAttrFilters REq [_] S C). intros c style K Z. change (join " || " [?t]) with t.
    replace (in_quotes (join (String d "") texts)) with (in_quotes (join "," texts)); [exact (R c style K)|].
    destruct B as [-> |B]; [reflexivity|]. destruct ops as [|o1 [|o2 ops]]; try discriminate B. reflexivity.
Qed.
Theorem C124_attrfilter : forall en pad o, op_ok o ->
  (forall i e, In i (snd o) -> e = ","%char \/ e = ";"%char -> ~ In e (chars (fst i)) /\ ~ In e (chars (snd i))) ->
  (forall i, In i (snd o) -> ~ occurs "add=" (snd i) /\ ~ occurs "delete=" (snd i)) ->
  target_back en (afo_Eq pad (Some (built_op o))).
Proof.
  intros en pad o O F P.
  assert (S := proj1 (C71_filter_operations pad) (built_op o)).
  assert (T : afo_string (built_op o) = opsym (fst o) ++ "=" ++ join " && " (map item_text (snd o))).
  { destruct (C33_operation o O) as [T _]. rewrite T. destruct o as [n i]. destruct O as ([E|E] & _); cbn [fst] in E; subst n; reflexivity. }
  apply (one_tback en pad _ TgAttrFilters REq _ S eq_refl). intros c style K Z. change (join " || " [?t]) with t. rewrite T.
  assert (R := C98_attrfilters en c style "," [o] ltac:(rewrite K; apply same_kw) (or_introl eq_refl) ltac:(discriminate)). apply R.
  - constructor; [intros []|constructor].
  - intros x [<-|[]]. exact O.
  - intros x i e [<-|[]]. apply F.
  - intros x i [<-|[]]. apply P.
Qed.

(* ---- the claims for all rules are false ---- *)
Definition en0 : env := MkEnv eqfold (fun s => if (s =? "") || (s =? badDotNot) then None else Some s) shifty_ref authNames false.
Definition wide : string := String (ascii_of_N 252) "".
Definition long_label : string := "abcdefghijklmnopqrstuvwxyzabcdefgh".
(* Host names: too long when read in one piece, or with a letter outside ASCII. *)
Theorem C123_fqdn_refuted :
  ~ (forall en pad init h l, Permutation (e_auth en) authNames -> fqdn_run (DNS init) h = Some l -> fqdn_valid (Some l) = true ->
       bind_back en (fqdn_Eq pad (Some l))) /\
  (exists l, fqdn_run (DNS [long_label]) [[long_label]] = Some l /\ fqdn_valid (Some l) = true /\ ~ bind_back en0 (fqdn_Eq true (Some l))) /\
  (exists l, fqdn_run (DNS ["m" ++ wide ++ "ller"; "de"]) [] = Some l /\ fqdn_valid (Some l) = true /\ ~ bind_back en0 (fqdn_Eq true (Some l))).
Proof.
  assert (A : exists l, fqdn_run (DNS [long_label]) [[long_label]] = Some l /\ fqdn_valid (Some l) = true /\ ~ bind_back en0 (fqdn_Eq true (Some l))).
  { exists [long_label; long_label]. assert (R : fqdn_run (DNS [long_label]) [[long_label]] = Some [long_label; long_label]) by (vm_compute; reflexivity).
    assert (V : fqdn_valid (Some [long_label; long_label]) = true) by (vm_compute; reflexivity). split; [exact R|]. split; [exact V|].
    intros B. apply (C123_fqdn en0 true _ _ _ (Permutation_refl _) R V) in B as [B _]. vm_compute in B. lia. }
  split; [|split; [exact A|]].
  - intros H. destruct A as (l & R & V & N). apply N. exact (H en0 true _ _ l (Permutation_refl _) R V).
  - exists ["m" ++ wide ++ "ller"; "de"]. assert (R : fqdn_run (DNS ["m" ++ wide ++ "ller"; "de"]) [] = Some ["m" ++ wide ++ "ller"; "de"]) by (vm_compute; reflexivity).
    assert (V : fqdn_valid (Some ["m" ++ wide ++ "ller"; "de"]) = true) by (vm_compute; reflexivity). split; [exact R|]. split; [exact V|].
    intros B. apply (C123_fqdn en0 true _ _ _ (Permutation_refl _) R V) in B as [_ B]. vm_compute in B. discriminate B.
Qed.
(* Names: a letter outside ASCII, two blanks in a row, the scheme twice, a name too short
   for the reader. *)
Theorem C123_name_refuted :
  ~ (forall en pad x, e_eqf en = eqfold -> x <> "" -> bind_back en (bdn_Eq pad (UDN x))) /\
  (forall x, In x ["cn=M" ++ wide ++ "ller"; "cn=a  b"; "ldap:///ldap:///cn=a"; "us"] -> ~ bind_back en0 (bdn_Eq true (UDN x))).
Proof.
  assert (A : forall x, In x ["cn=M" ++ wide ++ "ller"; "cn=a  b"; "ldap:///ldap:///cn=a"; "us"] -> ~ bind_back en0 (bdn_Eq true (UDN x))).
  { intros x X. set (t := "ldap:///" ++ chopDNPfx x).
    assert (N : x <> "") by (repeat destruct X as [<-|X]; try discriminate; destruct X).
    apply (lost en0 true _ UserDN REq [t]).
    - exact (proj1 (proj1 (C71_bind_dn_made true x N))).
    - split; [discriminate|]. intros v [<-|[]]. unfold t. repeat destruct X as [<-|X]; try (vm_compute; reflexivity). destruct X.
    - intros c style K Z. destruct (C98_names en0 c UserDN style t [] eq_refl (or_introl eq_refl) ltac:(rewrite K; apply same_kw)) as (R1 & R2 & _).
      rewrite outer_line in R1 by exact Z. cbn [map firsts_by existsb join] in R1. change (join " || " [?t]) with t.
      destruct X as [<-|[<-|[<-|[<-|[]]]]].
      + right. eexists. split; [|apply R1]; [vm_compute; discriminate|]. split; [vm_compute; lia|]. intros v [<-|[]]. unfold bind_value_ok. vm_compute. split; [split; [lia|left; tauto]|]. intuition discriminate.
      + right. eexists. split; [|apply R1]; [vm_compute; discriminate|]. split; [vm_compute; lia|]. intros v [<-|[]]. unfold bind_value_ok. vm_compute. split; [split; [lia|left; tauto]|]. intuition discriminate.
      + right. eexists. split; [|apply R1]; [vm_compute; discriminate|]. split; [vm_compute; lia|]. intros v [<-|[]]. unfold bind_value_ok. vm_compute. split; [split; [lia|left; tauto]|]. intuition discriminate.
      + left. apply R2. intros [_ B]. specialize (B _ (or_introl eq_refl)). vm_compute in B. lia. }
  split; [|exact A]. intros H. apply (A "us"); [cbn; tauto|]. now apply H.
Qed.
(* Attribute and value: two blanks in a row, a quotation mark at the end. *)
Theorem C123_attr_refuted :
  ~ (forall en pad fmt k a w, In k [UserAttr; GroupAttr] -> attr_name a -> what_ok w ->
       bind_back en (abtv_Eq pad fmt (MkABTV (bindkw_const k) (Some (pair_of a w))))) /\
  (forall v, In v ["a  b"; "a'"] -> ~ bind_back en0 (abtv_Eq true "" (MkABTV BindUAT (Some (pair_of "manager" (WValue v)))))).
Proof.
  assert (M : attr_name "manager") by (left; apply identifier_iff; reflexivity).
  assert (W : forall v, In v ["a  b"; "a'"] -> what_ok (WValue v)) by (intros v [<-|[<-|[]]]; (split; [discriminate|reflexivity])).
  assert (A : forall v, In v ["a  b"; "a'"] -> ~ bind_back en0 (abtv_Eq true "" (MkABTV BindUAT (Some (pair_of "manager" (WValue v)))))).
  { intros v V. destruct (C23_round_trip BindUAT "manager" (WValue v) (or_introl eq_refl) M (W v V)) as [T _].
    destruct (proj1 (C72_partial true "" _) UserAttr (pair_of "manager" (WValue v)) _ (or_introl eq_refl) eq_refl ltac:(discriminate) T) as (_ & E & _).
    apply (lost en0 true _ UserAttr REq [_] E); [now eexists|]. intros c style K Z. right.
    assert (R := attr_reader en0 UserAttr ("manager#" ++ v) (or_introl eq_refl)). cbv zeta in R.
    destruct V as [<-|[<-|[]]].
    - exists "manager#a b". split; [discriminate|]. apply (bind_text en0 c UserAttr); [rewrite K; apply same_kw|]. exact (eq_trans R ltac:(vm_compute; reflexivity)).
    - exists "manager#a". split; [discriminate|]. apply (bind_text en0 c UserAttr); [rewrite K; apply same_kw|]. exact (eq_trans R ltac:(vm_compute; reflexivity)). }
  split; [|exact A]. intros H. apply (A "a'"); [cbn; tauto|]. apply (H en0 true "" UserAttr); [now left|exact M|apply W; cbn; tauto].
Qed.
(* An inheritance without a level reads as level 0, which is what it prints. *)
Theorem C123_no_level : forall en pad fmt k a w, shifty_ok (e_shifty en) -> In k [UserAttr; GroupAttr] -> attr_name a -> what_ok w ->
  settled (a ++ "#" ++ what_text w) ->
  let i := Inherit (e_shifty en) (MkABTV (bindkw_const k) (Some (pair_of a w))) [] in
  bind_back en (inh_Eq (e_shifty en) pad fmt i) /\ bind_back en (inh_Ne (e_shifty en) pad fmt i).
Proof.
  intros en pad fmt k a w OK I A W S i.
  assert (KK : bindkw_const k = BindUAT \/ bindkw_const k = BindGAT) by (destruct I as [<-|[<-|[]]]; [left|right]; reflexivity).
  assert (T := C06_no_level (e_shifty en) fmt (bindkw_const k) a w KK A W). fold i in T.
  assert (ST : settled ("parent[0]." ++ a ++ "#" ++ what_text w)).
  { apply settled_front; [destruct a; discriminate|apply all_bytes_chars; reflexivity|exact S]. }
  assert (G : again en k ["parent[0]." ++ a ++ "#" ++ what_text w]).
  { intros c style K Z. change (join " || " [?t]) with t.
    apply (C98_attr_levels en c k style _ [0%N] a w OK I ltac:(rewrite K; apply same_kw)); [discriminate|intros n [<-|[]]; reflexivity|exact A|exact W|]. now rewrite (settled_read _ ST). }
  assert (X : exists lv, i = Some (MkInh lv (MkABTV (bindkw_const k) (Some (pair_of a w))))) by (eexists; reflexivity). destruct X as [lv X].
  destruct (proj1 (C71_inheritance (e_shifty en) pad fmt i) k lv (pair_of a w) I X) as [E1 E2]. rewrite T in E1, E2.
  assert (M : bind_many k = false) by (destruct I as [<-|[<-|[]]]; reflexivity).
  split; [exact (one_back en pad _ k REq _ E1 M G)|exact (one_back en pad _ k RNe _ E2 M G)].
Qed.
(* Target rules: two attributes, a filter or a name with two blanks in a row, a name with a
   letter outside ASCII, two operations with a semicolon between them. *)
Theorem C124_refuted :
  ~ (forall en r, (exists a l, r = ats_Eq true (Some (a, map AT l))) -> tr_valid r = true -> target_back en r) /\
  ~ target_back en0 (ats_Eq true (Some (true, [Some "cn"; Some "sn"]))) /\
  ~ target_back en0 (sf_Eq true (Some "(a=b  c)")) /\
  (forall x, In x ["cn=M" ++ wide ++ "ller"; "cn=a  b"; "ldap:///ldap:///cn=a"; "us"] -> ~ target_back en0 (tdn_Eq true (TDN x))) /\
  ~ target_back en0 (afos_Eq true (Some (MkAFOs ";" (map built_op witness_ops)))).
Proof.
  assert (CN : attr_name "cn") by (left; apply identifier_iff; reflexivity). assert (SN : attr_name "sn") by (left; apply identifier_iff; reflexivity).
  assert (A : ~ target_back en0 (ats_Eq true (Some (true, [Some "cn"; Some "sn"])))).
  { intros B. apply (C124_attributes en0 true true "cn" ["sn"] CN ltac:(intros x [<-|[]]; exact SN)) in B as [_ B]. specialize (B "sn" (or_introl eq_refl)). discriminate B. }
  split; [|split; [exact A|split; [|split]]].
  - intros H. apply A. apply H; [now exists true, ["cn"; "sn"]|]. now vm_compute.
  - apply (tlost en0 true _ TgFilter REq ["(a=b  c)"]); [exact (proj1 (proj1 (C71_search_filter true) "(a=b  c)" ltac:(discriminate)))|now eexists|].
    intros c style K Z. right. exists "(a=b c)". split; [discriminate|]. apply (proj1 (C98_filter en0 c style ["(a=b  c)"] ltac:(rewrite K; apply same_kw)) _ eq_refl). vm_compute. lia.
  - intros x X. set (t := "ldap:///" ++ chopDNPfx x).
    assert (N : x <> "") by (repeat destruct X as [<-|X]; try discriminate; destruct X).
    apply (tlost en0 true _ TgTarget REq [t]).
    + exact (proj1 (proj1 (C71_target_dn_made true x N))).
    + split; [discriminate|]. intros v [<-|[]]. unfold t. repeat destruct X as [<-|X]; try (vm_compute; reflexivity). destruct X.
    + intros c style K Z. destruct (C98_targets en0 c TgTarget style [t] eq_refl (or_introl eq_refl) ltac:(rewrite K; apply same_kw)) as (R1 & R2).
      rewrite outer_line in R1 by exact Z. cbn [map firsts_by existsb join] in R1. change (join " || " [?t]) with t.
      destruct X as [<-|[<-|[<-|[<-|[]]]]].
      * right. eexists. split; [|apply R1]; [vm_compute; discriminate|]. split; [discriminate|]. intros v [<-|[]]. vm_compute. split; [lia|left; tauto].
      * right. eexists. split; [|apply R1]; [vm_compute; discriminate|]. split; [discriminate|]. intros v [<-|[]]. vm_compute. split; [lia|left; tauto].
      * right. eexists. split; [|apply R1]; [vm_compute; discriminate|]. split; [discriminate|]. intros v [<-|[]]. vm_compute. split; [lia|left; tauto].
      * left. apply R2. intros [_ B]. specialize (B _ (or_introl eq_refl)). vm_compute in B. lia.
  - destruct C33_witness as (O & ND & F & P & _). intros B.
    apply (C124_attrfilters en0 true ";"%char witness_ops (or_intror eq_refl) ltac:(discriminate) ND O F P) in B as [B|B]; discriminate B.
Qed.

(* Concrete values meet the hypotheses, and come back. *)
Lemma settled_check t : is_ascii t = true -> join " " (words t) = t ->
  match first_byte t with Some c => negb (white c) && negb (is_quote c) | None => true end = true ->
  match last_byte t with Some c => negb (white c) && negb (is_quote c) | None => true end = true -> settled t.
Proof.
  intros A J F L. split; [exact A|]. split; [exact J|]. split; intros c E; [rewrite E in F|rewrite E in L].
  - apply andb_true_iff in F as [F1 F2]. split; [now apply negb_true_iff|now apply negb_true_iff].
  - apply andb_true_iff in L as [F1 F2]. split; [now apply negb_true_iff|now apply negb_true_iff].
Qed.
Lemma plain_name_check t : no_byte "=" t = false -> settled ("ldap:///" ++ t) -> no_byte "|" t = true -> (3 <= String.length t)%nat -> has_prefix "ldap:///" t = false -> plain_name t.
Proof. intros E S B L P. split; [exact (settled_kept _ S)|]. split; [exact B|]. split; [exact L|]. split; [exact P|]. rewrite E. discriminate. Qed.
Example C123_witness :
  Permutation (e_auth en0) authNames /\ e_eqf en0 = eqfold /\ shifty_ok (e_shifty en0) /\
  bind_back en0 (ip_Eq true (Some ["10.1.*"; "fe80:*"; "192.168.0.0/16"])) /\
  br_string (ip_Eq true (Some ["10.1.*"; "fe80:*"; "192.168.0.0/16"])) = "ip = ""10.1.*,fe80:*,192.168.0.0/16""" /\
  bind_back en0 (fqdn_Ne true (Some ["www"; "example"; "com"; "*"])) /\
  (plain_name "cn=Jesse Coretta,ou=People,dc=example,dc=com" /\ no_byte "?" "cn=Jesse Coretta,ou=People,dc=example,dc=com" = true) /\
  bind_back en0 (bdns_Eq true (Some (BindUDN, map (dn_member BindUDN) ["cn=Jesse Coretta,dc=x"; "cn=b,dc=x"]))) /\
  br_string (bdns_Eq true (Some (BindUDN, map (dn_member BindUDN) ["cn=Jesse Coretta,dc=x"; "cn=b,dc=x"]))) = "userdn = ""ldap:///cn=Jesse Coretta,dc=x || ldap:///cn=b,dc=x""" /\
  bind_back en0 (inh_Eq shifty_ref true "" (inh_run shifty_ref (Inherit shifty_ref (MkABTV BindUAT (Some (pair_of "manager" (WType USERDN)))) [LInt 9]) demo_levels)) /\
  bind_back en0 (tod_Ge true (ToD [TStr "1330"])) /\
  br_string (tod_Ge true (ToD [TStr "1330"])) = "timeofday >= ""1330""".
Proof.
  assert (P : Permutation (e_auth en0) authNames) by apply Permutation_refl.
  assert (S : forall t, In t ["cn=Jesse Coretta,dc=x"; "cn=b,dc=x"; "cn=Jesse Coretta,ou=People,dc=example,dc=com"] -> plain_name t /\ no_byte "?" t = true).
  { intros t T. repeat destruct T as [<-|T]; try (split; [apply plain_name_check; try reflexivity; [apply settled_check; vm_compute; reflexivity|vm_compute; lia]|reflexivity]). destruct T. }
  split; [exact P|]. split; [reflexivity|]. split; [exact shifty_ref_ok|].
  split; [exact (proj1 (C123_address en0 true ["10.1.*"; "hello"] [["fe80:*"; "10.1.*"]; [""; "8"; "192.168.0.0/16"]] _ P (proj1 C19_witness) ltac:(discriminate)))|].
  split; [reflexivity|].
  split. { apply (C123_fqdn en0 true ["www"; "-bad"] [["www"]; ["example.com"]; ["a..b"]; ["*"]] _ P (proj1 C20_witness)); [reflexivity|]. vm_compute. split; [lia|reflexivity]. }
  split; [apply S; cbn; tauto|].
  split. { apply (C123_names en0 true UserDN ["cn=Jesse Coretta,dc=x"; "cn=b,dc=x"] eq_refl (or_introl eq_refl)); [discriminate|intros t T; apply S; cbn in *; tauto|].
    repeat constructor; intros; vm_compute; reflexivity. }
  split; [vm_compute; reflexivity|].
  split. { apply (C123_levels en0 true "" UserAttr "manager" (WType USERDN) [LInt 9] demo_levels shifty_ref_ok (or_introl eq_refl)).
    - left. apply identifier_iff. reflexivity.
    - vm_compute; split; discriminate.
    - exact (proj1 C05_witness).
    - exists 7%N. split; [lia|]. vm_compute. reflexivity.
    - apply settled_check; vm_compute; reflexivity. }
  split; [|vm_compute; reflexivity]. apply C123_time; [exact P|]. intros z h m [E|[]]. discriminate E.
Qed.

Example C124_witness :
  target_back en0 (sf_Eq true (Some "(&(cn=a b)(sn=c))")) /\
  tr_string (sf_Eq true (Some "(&(cn=a b)(sn=c))")) = "( targetfilter = ""(&(cn=a b)(sn=c))"" )" /\
  target_back en0 (at_Ne true (Some "userPassword")) /\
  target_back en0 (oids_Eq true (Some (MkOL TargetCtrl (map (oid_member TargetCtrl) ["1.3.6.1.4.1.56521.101"; "1.3.6.1"])))) /\
  tr_string (oids_Eq true (Some (MkOL TargetCtrl (map (oid_member TargetCtrl) ["1.3.6.1.4.1.56521.101"; "1.3.6.1"])))) = "( targetcontrol = ""1.3.6.1.4.1.56521.101 || 1.3.6.1"" )" /\
  target_back en0 (tdns_Ne true (Some (Target, map (dn_member Target) ["ou=People,dc=x"; "cn=b,dc=x"]))) /\
  target_back en0 (afos_Eq true (Some (MkAFOs "," (map built_op witness_ops)))) /\
  tr_string (afos_Eq true (Some (MkAFOs "," (map built_op witness_ops)))) = "( targattrfilters = ""add=cn:(cn=a b) && sn:(&(x=1)(y=2)),delete=cn:(cn=a b)"" )".
Proof.
  split. { apply (proj1 (C124_filter en0 true "(&(cn=a b)(sn=c))" ltac:(apply settled_check; vm_compute; reflexivity) ltac:(discriminate))). vm_compute. lia. }
  split; [vm_compute; reflexivity|].
  split. { apply (proj2 (C124_attribute en0 true "userPassword" ltac:(left; apply identifier_iff; reflexivity))). reflexivity. }
  split. { refine (proj1 (C124_oids en0 true TgCtrl ["1.3.6.1.4.1.56521.101"; "1.3.6.1"] _ _ _ _ _)); [now left| |discriminate| |].
    - intros s t H. cbn [e_dotnot en0] in H. destruct (String.eqb_spec s ""); [discriminate|]. destruct (String.eqb_spec s badDotNot); [discriminate|]. injection H as <-. now split.
    - intros t [<-|[<-|[]]]; split; reflexivity.
    - repeat constructor; intros; vm_compute; reflexivity. }
  split; [vm_compute; reflexivity|].
  split. { refine (proj2 (C124_names en0 true TgTarget ["ou=People,dc=x"; "cn=b,dc=x"] eq_refl (or_introl eq_refl) _ _ _)); [discriminate| |repeat constructor; intros; vm_compute; reflexivity].
    intros t [<-|[<-|[]]]; (apply plain_name_check; try reflexivity; [apply settled_check; vm_compute; reflexivity|vm_compute; lia]). }
  split; [|vm_compute; reflexivity].
  destruct C33_witness as (O & ND & F & P & _). apply (C124_attrfilters en0 true ","%char witness_ops (or_introl eq_refl) ltac:(discriminate) ND O F P). now left.
Qed.

Print Assumptions C123_address.
Print Assumptions C123_fqdn.
Print Assumptions C123_auth_method.
Print Assumptions C123_strength.
Print Assumptions C123_time.
Print Assumptions C123_days.
Print Assumptions C123_names.
Print Assumptions C123_names_pushed.
Print Assumptions C123_name.
Print Assumptions C123_attr.
Print Assumptions C123_levels.
Print Assumptions C123_uri_search.
Print Assumptions C123_uri_plain.
Print Assumptions C123_uri_value.
Print Assumptions C124_scope.
Print Assumptions C124_filter.
Print Assumptions C124_attributes.
Print Assumptions C124_attribute.
Print Assumptions C124_oids.
Print Assumptions C124_oid.
Print Assumptions C124_names.
Print Assumptions C124_names_pushed.
Print Assumptions C124_name.
Print Assumptions C124_attrfilters.
Print Assumptions C124_attrfilter.
Print Assumptions C123_fqdn_refuted.
Print Assumptions C123_name_refuted.
Print Assumptions C123_attr_refuted.
Print Assumptions C123_no_level.
Print Assumptions C124_refuted.
