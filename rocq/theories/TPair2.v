(* C159, C160: goroutines that set and print one attribute filter. *)
From Coq Require Import String List PeanoNat NArith Bool Lia.
From Verif Require Import GoStr MHeap MMisc MAttr MFilter MPair SPair SWord SFirst PWhole PDrain TPair.
Import ListNotations.
Open Scope list_scope.

Lemma a_app st a b : a_sched st (a ++ b) = a_sched (a_sched st a) b.
Proof. apply fold_left_app. Qed.
Lemma a_snoc st a i : a_sched st (a ++ [i]) = a_step (a_sched st a) i.
Proof. now rewrite a_app. Qed.
Lemma a_step_go st i g0 : nth_error (agos st) i = Some g0 ->
  afilt (a_step st i) = fst (a_gstep (afilt st) g0) /\
  nth_error (agos (a_step st i)) i = Some (snd (a_gstep (afilt st) g0)) /\
  forall j, j <> i -> nth_error (agos (a_step st i)) j = nth_error (agos st) j.
Proof.
  intros E. unfold a_step. rewrite E. destruct (a_gstep (afilt st) g0) as [r g']. cbn [afilt agos fst snd].
  split; [reflexivity|]. split; [apply wr_same; apply nth_error_Some; congruence|]. intros j J. now apply wr_other.
Qed.
Lemma a_step_none st i : nth_error (agos st) i = None -> a_step st i = st.
Proof. intros E. unfold a_step. now rewrite E. Qed.
Lemma a_step_len st i : List.length (agos (a_step st i)) = List.length (agos st).
Proof.
  unfold a_step. destruct (nth_error (agos st) i) as [g|]; [|reflexivity].
  destruct (a_gstep (afilt st) g) as [r g']. cbn [agos]. apply wr_len.
Qed.
Lemma a_step_in st i g : In g (agos (a_step st i)) ->
  In g (agos st) \/ exists g0, nth_error (agos st) i = Some g0 /\ g = snd (a_gstep (afilt st) g0).
Proof.
  unfold a_step. destruct (nth_error (agos st) i) as [g0|] eqn:E; [|now left].
  destruct (a_gstep (afilt st) g0) as [r g'] eqn:S. cbn [agos]. intros I. apply wr_in in I as [->|I]; [|now left].
  right. exists g0. split; [reflexivity|]. now rewrite S.
Qed.

(* ---- the filter: some order of the arguments ---- *)
Record log (r : atf) (css : list (list (pcall farg))) (st : astate) (h : list (nat * farg)) : Prop := {
  lo_len : List.length (agos st) = List.length css;
  lo_log : forall k x, In (k, x) h -> (k < List.length css)%nat;
  lo_filt : afilt st = atf_set r (map snd h);
  lo_go : forall k g cs, nth_error (agos st) k = Some g -> nth_error css k = Some cs -> p_args cs = of_ k h ++ args_in (atodo g) }.
Lemma log_run r css q : exists h, log r css (a_sched (a_start r css) q) h.
Proof.
  induction q as [|i q [h H]] using rev_ind.
  - exists []. split; cbn [a_sched fold_left a_start agos afilt].
    + apply map_length.
    + intros k x [].
    + reflexivity.
    + intros k g cs G C. rewrite nth_error_map, C in G. cbn in G. injection G as <-. cbn [atodo of_ filter map app]. symmetry. apply args_ops.
  - rewrite a_snoc. set (st := a_sched (a_start r css) q) in *.
    destruct (nth_error (agos st) i) as [g0|] eqn:E; [|rewrite a_step_none by assumption; now exists h].
    destruct (a_step_go st i g0 E) as (P & P1 & P2).
    assert (Li : (i < List.length css)%nat) by (rewrite <- (lo_len _ _ _ _ H); apply nth_error_Some; congruence).
    assert (K : (exists x, fst (a_gstep (afilt st) g0) = atf_set1 (afilt st) x /\ args_in (atodo g0) = x :: args_in (atodo (snd (a_gstep (afilt st) g0)))) \/
                (fst (a_gstep (afilt st) g0) = afilt st /\ args_in (atodo g0) = args_in (atodo (snd (a_gstep (afilt st) g0))))).
    { destruct g0 as [td p tx]. unfold a_gstep. cbn [aat atodo atexts]. destruct p; try (right; split; reflexivity).
      - destruct td as [|[x|] td]; [right; now split| |right; now split]. left. exists x. now split.
      - right. destruct (at_isZero _); now split.
      - right. destruct (sf_isZero _); now split.
      - right. destruct (at_isZero _); now split. }
    destruct K as [(x & K1 & K2)|[K1 K2]].
    + exists (h ++ [(i, x)]). split.
      * now rewrite a_step_len, (lo_len _ _ _ _ H).
      * intros k y J. apply in_app_iff in J as [J|[J|[]]]; [now apply (lo_log _ _ _ _ H k y)|]. now injection J as <- <-.
      * rewrite P, K1, map_app. cbn [map snd]. unfold atf_set. rewrite fold_left_app. cbn [fold_left]. f_equal. apply (lo_filt _ _ _ _ H).
      * intros k g cs G C. rewrite of_snoc. destruct (Nat.eqb_spec i k) as [->|N].
        -- rewrite P1 in G. injection G as <-. rewrite (lo_go _ _ _ _ H k g0 cs E C), K2. now rewrite <- app_assoc.
        -- rewrite P2 in G by congruence. rewrite app_nil_r. now apply (lo_go _ _ _ _ H).
    + exists h. split.
      * now rewrite a_step_len, (lo_len _ _ _ _ H).
      * apply H.
      * rewrite P, K1. apply H.
      * intros k g cs G C. destruct (Nat.eq_dec k i) as [->|N].
        -- rewrite P1 in G. injection G as <-. rewrite (lo_go _ _ _ _ H i g0 cs E C). now rewrite K2.
        -- rewrite P2 in G by assumption. now apply (lo_go _ _ _ _ H).
Qed.
(* At every moment the filter is what some order of arguments makes of it, of each goroutine
   its first arguments; when all calls have returned, all arguments. *)
Theorem C159_order : forall r css q, exists h, beginnings (map p_args css) h /\
  afilt (a_sched (a_start r css) q) = atf_set r (map snd h) /\
  (a_returned (a_sched (a_start r css) q) -> merges (map p_args css) h).
Proof.
  intros r css q. destruct (log_run r css q) as [h H]. exists h.
  assert (In_ : forall k x, In (k, x) h -> (k < List.length (map p_args css))%nat).
  { intros k x J. rewrite map_length. now apply (lo_log _ _ _ _ H k x). }
  assert (Go : forall k es, nth_error (map p_args css) k = Some es ->
     exists g, In g (agos (a_sched (a_start r css) q)) /\ es = of_ k h ++ args_in (atodo g)).
  { intros k es F. rewrite nth_error_map in F. destruct (nth_error css k) as [cs|] eqn:C; [|discriminate]. injection F as <-.
    destruct (nth_error (agos (a_sched (a_start r css) q)) k) as [g|] eqn:G.
    - exists g. split; [now apply (nth_error_In _ k)|]. now apply (lo_go _ _ _ _ H).
    - apply nth_error_None in G. rewrite (lo_len _ _ _ _ H) in G. apply nth_error_None in G. congruence. }
  split; [|split; [apply H|]].
  - split; [assumption|]. intros k es F. destruct (Go k es F) as (g & _ & ->). eexists. reflexivity.
  - intros R. split; [assumption|]. intros k es F. destruct (Go k es F) as (g & J & ->). destruct (R g J) as [-> _]. cbn. now rewrite app_nil_r.
Qed.

(* ---- what String returns ---- *)
Section Text.
Variables (r : atf) (css : list (list (pcall farg))).
Notation at_ q := (afilt (a_sched (a_start r css) q)).
(* two moments, one not after the other, at which the filter, then the attribute type is there *)
Definition both (q : list nat) : Prop :=
  exists a b c, q = a ++ b ++ c /\ sf_isZero (snd (at_ a)) = false /\ at_isZero (fst (at_ (a ++ b))) = false.
Definition shows (q : list nat) (t : string) : Prop :=
  exists a b c, q = a ++ b ++ c /\
    ((t = ""%string /\ ~ whole (at_ a)) \/
     (both a /\ t = (at_string (fst (at_ a)) ++ ":" ++ sf_string (snd (at_ (a ++ b)%list)))%string)).
Lemma both_more q q' : both q -> both (q ++ q').
Proof. intros (a & b & c & -> & E). exists a, b, (c ++ q'). split; [now rewrite <- !app_assoc|assumption]. Qed.
Lemma shows_more q i t : shows q t -> shows (q ++ [i]) t.
Proof. intros (a & b & c & -> & E). exists a, b, (c ++ [i]). split; [now rewrite <- !app_assoc|assumption]. Qed.
Lemma shows_none q i : ~ whole (at_ q) -> shows (q ++ [i]) "".
Proof. intros N. exists q, [], [i]. split; [reflexivity|]. left. now split. Qed.
Definition place_ok (q : list nat) (p : aplace) : Prop :=
  match p with
  | AVal2 => exists a b, q = a ++ b /\ sf_isZero (snd (at_ a)) = false
  | AName => both q
  | AFilt n => exists a b, q = a ++ b /\ both a /\ n = fst (at_ a)
  | _ => True
  end.
Lemma place_more q i p : place_ok q p -> place_ok (q ++ [i]) p.
Proof.
  destruct p as [| | | | | |n]; cbn [place_ok]; try exact (fun x => x).
  - intros (a & b & -> & E). exists a, (b ++ [i]). split; [now rewrite app_assoc|assumption].
  - apply both_more.
  - intros (a & b & -> & E). exists a, (b ++ [i]). split; [now rewrite app_assoc|assumption].
Qed.
Lemma a_text_run q : (forall g t, In g (agos (a_sched (a_start r css) q)) -> In t (atexts g) -> shows q t) /\
  (forall g, In g (agos (a_sched (a_start r css) q)) -> place_ok q (aat g)).
Proof.
  induction q as [|i q [I1 I2]] using rev_ind.
  - split; intros g.
    + intros x J; apply in_map_iff in J as (cs & <- & _). intros [].
    + intros J; apply in_map_iff in J as (cs & <- & _). exact I.
  - rewrite a_snoc. split.
    + intros g t J K. apply a_step_in in J as [J|(g0 & E & ->)]; [apply shows_more; now apply (I1 g)|].
      pose proof (nth_error_In _ _ E) as I0. specialize (I2 g0 I0). specialize (I1 g0). destruct g0 as [td p tx].
      unfold a_gstep in K. cbn [aat atodo atexts] in *.
      assert (Old : In t tx -> shows (q ++ [i]) t) by (intros T; apply shows_more; now apply I1).
      destruct p as [| | | | | |n].
      * destruct td as [|[x|] td]; now apply Old.
      * now apply Old.
      * destruct (at_isZero (fst (at_ q))) eqn:Z; cbn [snd atexts] in K; [|now apply Old].
        apply in_app_iff in K as [K|[<-|[]]]; [now apply Old|]. apply shows_none. intros [W _]. congruence.
      * destruct (sf_isZero (snd (at_ q))) eqn:Z; cbn [snd atexts] in K; [|now apply Old].
        apply in_app_iff in K as [K|[<-|[]]]; [now apply Old|]. apply shows_none. intros [_ W]. congruence.
      * destruct (at_isZero (fst (at_ q))) eqn:Z; cbn [snd atexts] in K; [|now apply Old].
        apply in_app_iff in K as [K|[<-|[]]]; [now apply Old|]. apply shows_none. intros [W _]. congruence.
      * now apply Old.
      * cbn [snd atexts] in K. apply in_app_iff in K as [K|[<-|[]]]; [now apply Old|].
        destruct I2 as (a & b & -> & B & ->). apply shows_more. exists a, b, [].
        split; [now rewrite app_nil_r|]. right. now split.
    + intros g J. apply a_step_in in J as [J|(g0 & E & ->)]; [apply place_more; now apply I2|].
      specialize (I2 g0 (nth_error_In _ _ E)).
      destruct g0 as [td p tx]. unfold a_gstep. cbn [aat atodo atexts] in *. destruct p as [| | | | | |n0].
      * destruct td as [|[x|] td]; exact I.
      * cbn [snd aat]. destruct (sf_isZero _); exact I.
      * destruct (at_isZero _); exact I.
      * destruct (sf_isZero (snd (at_ q))) eqn:Z; [exact I|]. exists q, [i]. now split.
      * destruct (at_isZero (fst (at_ q))) eqn:Z; [exact I|]. cbn [snd aat place_ok].
        destruct I2 as (a & b & -> & F). exists a, b, [i]. split; [now rewrite app_assoc|]. now split.
      * cbn [snd aat place_ok]. exists q, [i]. split; [reflexivity|]. now split.
      * exact I.
Qed.
End Text.
(* Each call of String returns the empty text, and then a part of the filter was missing at
   some moment, or the attribute type of one moment and the filter of the same or a later one,
   and then the filter and after it the attribute type had been there at a moment before. *)
Theorem C159_text : forall r css q g t, let at_ q := afilt (a_sched (a_start r css) q) in
  In g (agos (a_sched (a_start r css) q)) -> In t (atexts g) ->
  (exists a b, q = a ++ b /\ t = ""%string /\ ~ whole (at_ a)) \/
  (exists a b c d e, q = a ++ b ++ c ++ d ++ e /\
     sf_isZero (snd (at_ a)) = false /\ at_isZero (fst (at_ (a ++ b))) = false /\
     t = (at_string (fst (at_ (a ++ b ++ c)%list)) ++ ":" ++ sf_string (snd (at_ (a ++ b ++ c ++ d)%list)))%string).
Proof.
  intros r css q g t at_ I J. destruct (proj1 (a_text_run r css q) g t I J) as (a & b & c & -> & [[-> W]|[(x & y & z & -> & F & N) ->]]).
  - left. exists a, (b ++ c). now repeat split.
  - right. exists x, y, z, b, c. split; [now rewrite <- !app_assoc|]. split; [assumption|]. split; [assumption|].
    unfold at_. now rewrite <- !app_assoc.
Qed.
(* While nobody changes a filter, every call of String returns its text. *)
Theorem C159_alone : forall r css q g t, (forall x, ~ p_gives css x) ->
  In g (agos (a_sched (a_start r css) q)) -> In t (atexts g) -> t = af_string (Some r).
Proof.
  intros r css q g t N I J.
  assert (Fix : forall q, afilt (a_sched (a_start r css) q) = r).
  { intros p. destruct (C159_order r css p) as (h & [B1 B2] & -> & _). destruct h as [|[k x] h]; [reflexivity|]. exfalso.
    specialize (B1 k x (or_introl eq_refl)). destruct (nth_error (map p_args css) k) as [es|] eqn:F; [|apply nth_error_None in F; lia].
    destruct (B2 k es F) as (rest & E). rewrite nth_error_map in F. destruct (nth_error css k) as [cs|] eqn:C; [|discriminate]. injection F as <-.
    apply (N x). exists cs. split; [now apply (nth_error_In _ k)|]. rewrite E. cbn [filter fst]. rewrite Nat.eqb_refl. now left. }
  unfold af_string, af_valid, af_isZero. destruct (C159_text r css q g t I J) as [(a & b & -> & -> & W)|(a & b & c & d & e & -> & F & A & ->)].
  - rewrite Fix in W. destruct r as [n f]. unfold whole in W. cbn [fst snd] in W.
    destruct (sf_isZero f), (at_isZero n); try reflexivity. exfalso. now apply W.
  - rewrite !Fix in *. destruct r as [n f]. cbn [fst snd] in *. now rewrite F, A.
Qed.

Definition no_name (x : farg) : Prop := match x with FStr s => isIdentifier s = false | FAT _ => False | _ => True end.
Definition no_filter (x : farg) : Prop := match x with FStr s => isIdentifier s = true | FSF _ => False | _ => True end.
Lemma fixed_name r css q : (forall x, p_gives css x -> no_name x) -> fst (afilt (a_sched (a_start r css) q)) = fst r.
Proof.
  intros N. destruct (C159_order r css q) as (h & [B1 B2] & -> & _).
  assert (G : forall k x, In (k, x) h -> no_name x).
  { intros k x J. apply N. specialize (B1 k x J). destruct (nth_error (map p_args css) k) as [es|] eqn:F; [|apply nth_error_None in F; lia].
    destruct (B2 k es F) as (rest & E). rewrite nth_error_map in F. destruct (nth_error css k) as [cs|] eqn:C; [|discriminate]. injection F as <-.
    exists cs. split; [now apply (nth_error_In _ k)|]. rewrite E. apply in_app_iff. left. apply in_map_iff. exists (k, x). split; [reflexivity|].
    apply filter_In. split; [assumption|]. apply Nat.eqb_refl. }
  clear B1 B2 N. induction h as [|[k x] h I] using rev_ind; [reflexivity|].
  unfold atf_set. rewrite map_app, fold_left_app. cbn [map fold_left snd].
  assert (X : no_name x) by (apply (G k); apply in_app_iff; right; now left).
  assert (Y : fst (atf_set r (map snd h)) = fst r) by (apply I; intros k' x' J; apply (G k'); apply in_app_iff; now left).
  rewrite <- Y. destruct x; cbn [no_name atf_set1] in *; try reflexivity; [now rewrite X|contradiction].
Qed.
(* If no call changes the attribute type, each call of String shows the filter as it was at one
   moment. *)
Theorem C159_one_part : forall r css q g t, (forall x, p_gives css x -> no_name x) ->
  In g (agos (a_sched (a_start r css) q)) -> In t (atexts g) ->
  exists a b, q = a ++ b /\ (t = af_string (Some (afilt (a_sched (a_start r css) a))) \/
    t = (at_string (fst (afilt (a_sched (a_start r css) a))) ++ ":" ++ sf_string (snd (afilt (a_sched (a_start r css) a))))%string).
Proof.
  intros r css q g t N I J. destruct (C159_text r css q g t I J) as [(a & b & -> & -> & W)|(a & b & c & d & e & -> & _ & _ & E)].
  - exists a, b. split; [reflexivity|]. left. unfold af_string, af_valid. destruct (afilt _) as [n f] eqn:F.
    unfold whole in W. cbn [fst snd] in W. destruct (af_isZero _); [reflexivity|]. destruct (sf_isZero f); [reflexivity|].
    destruct (at_isZero n); [reflexivity|]. exfalso. now apply W.
  - exists (a ++ b ++ c ++ d), e. split; [now rewrite <- !app_assoc|]. right. rewrite E. now rewrite !(fixed_name r css) by assumption.
Qed.
Lemma filter_all {A} (f : A -> bool) l : (forall x, In x l -> f x = true) -> filter f l = l.
Proof.
  induction l as [|x l I]; intros H; [reflexivity|]. cbn [filter]. rewrite (H x (or_introl eq_refl)). f_equal. apply I. intros y J. apply H. now right.
Qed.
(* False of the code: String shows a pair of parts that the filter never was, though only one
   goroutine calls Set, whatever the parts. *)
Lemma torn a1 f1 a2 f2 : whole (a1, f1) -> whole (a2, f2) ->
  let css := [[PSet [FAT a2; FSF f2]]; [PString]] in let at_ q := a_sched (a_start (a1, f1) css) q in
  map atexts (agos (at_ [1; 1; 1; 1; 1; 0; 0; 1])) = [[]; [(at_string a1 ++ ":" ++ sf_string f2)%string]] /\
  a_returned (at_ [1; 1; 1; 1; 1; 0; 0; 1]) /\
  forall q, In (afilt (at_ q)) [(a1, f1); (a2, f1); (a2, f2)].
Proof.
  intros [W1 W2] [W3 W4]. cbn [fst snd] in *. cbn zeta. split; [|split].
  - unfold a_sched, a_start. cbn [fold_left p_ops flat_map map app]. unfold a_step at 8 7 6 5 4 3 2 1.
    repeat (cbn [nth_error agos afilt a_gstep aat atodo atexts wr fst snd atf_set1 app]; rewrite ?W1, ?W2, ?W3, ?W4; cbn [negb]). reflexivity.
  - unfold a_sched, a_start. cbn [fold_left p_ops flat_map map app]. unfold a_step at 8 7 6 5 4 3 2 1.
    repeat (cbn [nth_error agos afilt a_gstep aat atodo atexts wr fst snd atf_set1 app]; rewrite ?W1, ?W2, ?W3, ?W4; cbn [negb]).
    intros g [<-|[<-|[]]]; now split.
  - intros q. destruct (C159_order (a1, f1) [[PSet [FAT a2; FSF f2]]; [PString]] q) as (h & [B1 B2] & E & _). rewrite E.
    destruct (B2 0 [FAT a2; FSF f2] eq_refl) as (rest & R). assert (Z : filter (fun p => Nat.eqb (fst p) 0) h = h).
    { apply filter_all. intros [k x] J. pose proof (B1 k x J) as L. cbn in L.
      destruct k as [|k]; [reflexivity|]. destruct (B2 1 [] eq_refl) as (rest' & R').
      assert (k = 0)%nat by lia. subst k. exfalso. symmetry in R'. apply app_eq_nil in R' as [R' _]. apply map_eq_nil in R'.
      assert (In (1, x) (filter (fun p => Nat.eqb (fst p) 1) h)) as M by (apply filter_In; now split). rewrite R' in M. exact M. }
    rewrite Z in R. destruct (map snd h) as [|x1 [|x2 l]].
    + now left.
    + injection R as <- _. right. now left.
    + injection R as <- <- F. symmetry in F. apply app_eq_nil in F as [-> _]. right. right. now left.
Qed.
Theorem C160_torn : forall a1 f1 a2 f2, whole (a1, f1) -> whole (a2, f2) ->
  exists css q, a_returned (a_sched (a_start (a1, f1) css) q) /\
    (exists g, In g (agos (a_sched (a_start (a1, f1) css) q)) /\ In (at_string a1 ++ ":" ++ sf_string f2)%string (atexts g)) /\
    forall q', In (afilt (a_sched (a_start (a1, f1) css) q')) [(a1, f1); (a2, f1); (a2, f2)].
Proof.
  intros a1 f1 a2 f2 W1 W2. exists [[PSet [FAT a2; FSF f2]]; [PString]], [1; 1; 1; 1; 1; 0; 0; 1].
  destruct (torn a1 f1 a2 f2 W1 W2) as (T & R & A). split; [assumption|]. split; [|assumption].
  destruct (agos _) as [|g0 [|g1 [|]]]; try discriminate T. cbn [map] in T. injection T as _ T.
  exists g1. split; [right; now left|]. rewrite T. now left.
Qed.
Theorem C160_refuted : ~ (forall r css q g t, In g (agos (a_sched (a_start r css) q)) -> In t (atexts g) ->
  exists q', t = af_string (Some (afilt (a_sched (a_start r css) q')))).
Proof.
  intros F. pose (n1 := Some "cn"%string). pose (s1 := Some "(cn=*)"%string). pose (n2 := Some "sn"%string). pose (s2 := Some "(sn=*)"%string).
  destruct (C160_torn n1 s1 n2 s2) as (css & q & _ & (g & G & T) & A); [now split|now split|].
  destruct (F _ css q g _ G T) as (q' & E). destruct (A q') as [B|[B|[B|[]]]]; rewrite <- B in E; vm_compute in E; discriminate E.
Qed.

(* ---- every call returns ---- *)
Definition a_more (st : astate) (g : ago) : nat :=
  match aat g with AOff => 0 | AFilt _ => 1 | AName => 2 | AVal2 => 3 | AVal1 => 4 | AZero2 => 5 | AZero1 => 6 end.
Theorem C159_returns : forall r css q, exists q', a_returned (a_sched (a_start r css) (q ++ q')).
Proof.
  intros r css q. setoid_rewrite a_app. generalize (a_sched (a_start r css) q). clear. intros st.
  unfold a_returned, a_sched.
  apply (drain _ _ agos a_step _ (fun g => List.length (atodo g)) a_more).
  - apply a_step_len.
  - intros s i j J. destruct (nth_error (agos s) i) as [g|] eqn:E; [|now rewrite a_step_none].
    now apply (a_step_go s i g E).
  - intros s i g E. destruct (a_step_go s i g E) as (_ & P & _). rewrite P. generalize (a_step s i). intros s'.
    destruct g as [td p tx]. unfold a_gstep. cbn [aat atodo atexts]. destruct p.
    + destruct td as [|[x|] td]; [now left| |]; right; eexists; (split; [reflexivity|]); left; cbn [snd atodo List.length]; lia.
    + right. eexists. split; [reflexivity|]. right. cbn [snd atodo]. unfold a_more. cbn [aat]. destruct (sf_isZero _); lia.
    + right. eexists. split; [reflexivity|]. right. destruct (at_isZero _); cbn [snd atodo]; unfold a_more; cbn [aat]; lia.
    + right. eexists. split; [reflexivity|]. right. destruct (sf_isZero _); cbn [snd atodo]; unfold a_more; cbn [aat]; lia.
    + right. eexists. split; [reflexivity|]. right. destruct (at_isZero _); cbn [snd atodo]; unfold a_more; cbn [aat]; lia.
    + right. eexists. split; [reflexivity|]. right. cbn [snd atodo]; unfold a_more; cbn [aat]; lia.
    + right. eexists. split; [reflexivity|]. right. cbn [snd atodo]; unfold a_more; cbn [aat]; lia.
Qed.

Open Scope string_scope.
(* two goroutines set parts, one prints while they do *)
Example C159_witness : let css := [[PSet [FStr "sn"; FStr "(sn=*)"]]; [PSet [FSF (Some "(cn=a*)")]]; [PString]] in
  let st := a_sched (a_start (Some "cn", Some "(cn=*)") css) [2; 2; 0; 2; 2; 2; 1; 2; 0] in
  a_returned st /\ map atexts (agos st) = [[]; []; ["sn:(cn=a*)"]] /\ afilt st = (Some "sn", Some "(sn=*)").
Proof.
  cbn zeta. split; [|split; vm_compute; reflexivity].
  assert (D : forall s, forallb (fun g => match atodo g, aat g with [], AOff => true | _, _ => false end) (agos s) = true -> a_returned s).
  { intros s F g I. rewrite forallb_forall in F. specialize (F g I).
    destruct (atodo g); [|discriminate]. destruct (aat g); try discriminate. now split. }
  apply D. vm_compute. reflexivity.
Qed.
Example C159_one_part_witness : forall x, p_gives [[PSet [FStr "(sn=*)"]]; [PString]] x -> no_name x.
Proof. intros x (cs & [<-|[<-|[]]] & J); cbn in J; [|contradiction]. destruct J as [<-|[]]. vm_compute. reflexivity. Qed.
Example C159_alone_witness : (forall x : farg, ~ p_gives [[PString]; [PString]] x) /\
  map atexts (agos (a_sched (a_start (Some "cn", Some "(cn=*)") [[PString]; [PString]]) [0; 1; 0; 1; 0; 1; 0; 1; 0; 1; 0; 1])) = [["cn:(cn=*)"]; ["cn:(cn=*)"]].
Proof. split; [|vm_compute; reflexivity]. intros x (cs & [<-|[<-|[]]] & J); exact J. Qed.
Example C160_torn_witness : whole (Some "cn", Some "(cn=*)") /\ whole (Some "sn", Some "(sn=*)").
Proof. split; split; reflexivity. Qed.

Print Assumptions C159_order.
Print Assumptions C159_text.
Print Assumptions C159_alone.
Print Assumptions C159_one_part.
Print Assumptions C159_returns.
Print Assumptions C160_torn.
Print Assumptions C160_refuted.
