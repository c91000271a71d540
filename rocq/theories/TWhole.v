(* C132-C136: instructions and everything they are made of, by reference. *)
From Coq Require Import String Ascii List PeanoNat NArith ZArith Bool Lia.
From Verif Require Import GoStr GoStrFacts Shifty MMisc MKw MRights MLists MRule MConv MTree MHeap MAci SLists SAci PLists PAci TTree TAci MWhole SWhole PWhole PWholeV.
Import ListNotations.
Open Scope string_scope.

Lemma reached_wf W s : reached W s -> wf s.
Proof. intros [p H]. eapply run_wf; [exact wf_start|exact H]. Qed.
Lemma reached_step W s c s' : reached W s -> step W s c = Some s' -> reached W s'.
Proof.
  intros [p H] E. exists (p ++ [c])%list. revert H. generalize s_start. induction p as [|d p IH]; intros s0 H; cbn [run app] in *; [injection H as ->; now rewrite E|].
  destruct (step W s0 d); [auto|discriminate].
Qed.

(* ---- C132 ---- *)
Theorem C132_frame : forall W s c s' v, reached W s -> step W s c = Some s' -> ~ concerns s c v -> shown W s' v = shown W s v.
Proof.
  intros W s c s' v R H N. pose proof (reached_wf W s R) as Wf. destruct (step_keeps W s c s' Wf H) as (W' & L & F & V). unfold shown.
  rewrite V by (intros I; apply N; now left). destruct (s_var s v) as [n|] eqn:E; [|reflexivity]. apply text_frame; [exact L|].
  intros m M. apply F; [|intros I; apply N; right; eauto]. apply (leads_lt (s_heap s) n); [apply Wf|exact M|]. now apply (proj2 Wf) in E.
Qed.
Theorem C132_program : forall W q s s' v, reached W s -> run W s q = Some s' -> unconcerned W s q v -> shown W s' v = shown W s v.
Proof.
  intros W. induction q as [|c q IH]; intros s s' v R H U; cbn [run unconcerned] in *; [now injection H as <-|].
  destruct U as [N U]. destruct (step W s c) as [s1|] eqn:E; [|discriminate]. rewrite (IH s1 s' v); [|eapply reached_step; eauto|exact H|exact U].
  eapply C132_frame; eauto.
Qed.
(* Parse gives its variable a new instruction: the one the parser describes; nothing
   else has anything in common with it, and no other variable changes *)
Theorem C132_parse : forall W s i raw a s', reached W s -> parseInstruction W raw = Gives (Some a) -> step W s (XParse i raw) = Some s' ->
  shown W s' i = Some (ins_string W (Some a)) /\
  (forall y, y <> i -> s_var s' y = s_var s y /\ shown W s' y = shown W s y /\ apart s' i y).
Proof.
  intros W s i raw a s' R P H. pose proof (reached_wf W s R) as Wf. pose proof Wf as [C V].
  assert (FR : forall y, y <> i -> shown W s' y = shown W s y).
  { intros y N. eapply C132_frame; [exact R|exact H|]. intros [[E|[]]|(n & m & _ & _ & [])]. now apply N. }
  cbn [step] in H. rewrite P in H.
  pose proof (alloc_ins_ok a (s_heap s) C) as A. pose proof (alloc_ins_above (List.length (s_heap s)) a (s_heap s) (above_end _) (le_n _)) as B.
  destruct (alloc_ins (s_heap s) a) as [h n]. destruct A as (G & L & I). destruct B as (AB & NB). injection H as <-. specialize (I (parse_good W raw a P)). split.
  - unfold shown. cbn [s_var s_heap]. rewrite upd_same. unfold text_at.
    assert (X : exists b t p, nth_error h n = Some (NIns b t p)).
    { unfold ins_at in I. destruct (nth_error h n) as [d|]; [|discriminate]. destruct d; try discriminate. eauto. }
    destruct X as (b & t & p & ->). unfold itext. rewrite I. reflexivity.
  - intros y N. assert (E : s_var (MkS h (upd (s_var s) i (Some n))) y = s_var s y) by (cbn; now apply upd_other). split; [exact E|]. split; [now apply FR|].
    intros k j m X Y LK LJ. cbn [s_var s_heap] in *. rewrite upd_same in X. injection X as <-. rewrite upd_other in Y by exact N.
    apply (leads_above _ _ _ _ AB) in LK; [|exact NB]. pose proof (V _ _ Y) as LT.
    assert (LO : leads (s_heap s) j m).
    { clear - LJ G C LT. induction LJ as [|j d k m E I LJ IH]; [constructor|]. rewrite (grown_old _ _ _ G LT) in E. eapply L_down; [exact E|exact I|]. apply IH. eauto. }
    apply (leads_lt _ _ _ C) in LO; [|exact LT]. lia.
Qed.

(* ---- C133 ---- *)
Lemma all_app {A} (l m : list (option A)) r q : all l = Some r -> all m = Some q -> all (l ++ m)%list = Some (r ++ q)%list.
Proof. rewrite !all_some. intros -> ->. now rewrite map_app. Qed.
Lemma itext_old W h h' k : closed h -> grown h h' -> (k < List.length h)%nat -> itext W h' k = itext W h k.
Proof. intros C G L. unfold itext. rewrite (ins_frame h h'); [reflexivity|now apply grown_len|now apply grown_same]. Qed.
Lemma pairs_fop {A} (R : A -> A -> Prop) : forall l, (forall i j y t, (i < j)%nat -> nth_error l i = Some y -> nth_error l j = Some t -> R y t) -> ForallOrdPairs R l.
Proof.
  induction l as [|a l IH]; intros H; constructor.
  - apply Forall_forall. intros x I. apply In_nth_error in I as [n E]. apply (H 0%nat (S n) a x); [lia|reflexivity|exact E].
  - apply IH. intros i j y t L E F. apply (H (S i) (S j)); [lia|exact E|exact F].
Qed.
Lemma fop_nth {A} (R : A -> A -> Prop) l : ForallOrdPairs R l -> forall i j y t, (i < j)%nat -> nth_error l i = Some y -> nth_error l j = Some t -> R y t.
Proof.
  induction 1 as [|a l F D IH]; intros i j y t L E G; [now destruct i|]. destruct j as [|j]; [lia|]. destruct i as [|i].
  - injection E as <-. rewrite Forall_forall in F. apply F. eapply nth_error_In. exact G.
  - apply (IH i j); [lia|exact E|exact G].
Qed.
Definition differ (W : world) (y t : string) : Prop := e_eqf (w_env W) y (condenseWHSP t) = false.
Lemma push_ins_inv W h l ts m l' : all (map (itext W h) l) = Some ts -> ForallOrdPairs (differ W) ts -> push_ins W h l m = Some l' ->
  exists ts', all (map (itext W h) l') = Some ts' /\ ForallOrdPairs (differ W) ts'.
Proof.
  intros A F H. unfold push_ins in H. destruct m as [m|]; [|injection H as <-; eauto]. rewrite A in H. destruct (itext W h m) as [t|] eqn:T; [|discriminate].
  injection H as <-. destruct (existsb _ ts) eqn:X; [eauto|]. exists (ts ++ [t])%list. split.
  - rewrite map_app. apply all_app; [exact A|]. cbn. now rewrite T.
  - apply fop_snoc; [exact F|]. intros y I. unfold differ. destruct (e_eqf (w_env W) y (condenseWHSP t)) eqn:E; [|reflexivity].
    rewrite <- X. symmetry. apply existsb_exists. eauto.
Qed.
Lemma push_inss_inv W v : forall xs h l ts h' l', closed h -> (forall x, ref_in h (v x)) -> (forall k, In k l -> (k < List.length h)%nat) ->
  all (map (itext W h) l) = Some ts -> ForallOrdPairs (differ W) ts -> push_inss W v h l xs = Some (h', l') ->
  exists ts', all (map (itext W h') l') = Some ts' /\ ForallOrdPairs (differ W) ts'.
Proof.
  induction xs as [|x xs IH]; intros h l ts h' l' C V M A F H; cbn [push_inss] in H.
  - injection H as <- <-. eauto.
  - destruct x as [s|r|].
    + destruct (parseInstruction W s) as [| |[x|]]; [discriminate|eapply IH; eauto| |eapply IH; eauto].
      pose proof (alloc_ins_ok x h C) as AL. destruct (alloc_ins h x) as [h1 m]. destruct AL as (G & L & _). destruct (push_ins W h1 l (Some m)) as [l1|] eqn:E; [|discriminate].
      pose proof (grown_len _ _ G) as GL. assert (A1 : all (map (itext W h1) l) = Some ts).
      { rewrite <- A. f_equal. apply map_ext_in. intros k I. apply itext_old; auto. }
      destruct (push_ins_inv W h1 l ts (Some m) l1 A1 F E) as (ts1 & A2 & F2). eapply IH; [exact (grown_closed _ _ G)| | |exact A2|exact F2|exact H].
      * intros y n Y. apply V in Y. lia.
      * intros k I. apply (push_ins_in _ _ _ _ _ E) in I as [I|[= <-]]; [apply M in I; lia|exact L].
    + destruct (push_ins W h l (v r)) as [l1|] eqn:E; [|discriminate]. destruct (push_ins_inv W h l ts _ l1 A F E) as (ts1 & A2 & F2).
      eapply IH; [exact C|exact V| |exact A2|exact F2|exact H]. intros k I. apply (push_ins_in _ _ _ _ _ E) in I as [I|I]; [auto|]. now apply V in I.
    + eapply IH; eauto.
Qed.
Lemma all_pop {A B} (f : A -> option B) l r : all (map f l) = Some r -> all (map f (removelast l)) = Some (removelast r).
Proof.
  revert r. induction l as [|a l IH]; intros r H; [now injection H as <-|]. cbn [map all] in H. destruct (f a) as [b|] eqn:E; [|discriminate].
  destruct (all (map f l)) as [q|] eqn:Q; [|discriminate]. injection H as <-. specialize (IH q eq_refl). destruct l as [|c l]; [now injection Q as <-|].
  change (removelast (a :: c :: l)) with (a :: removelast (c :: l)). destruct q as [|d q].
  - cbn in Q. destruct (f c); [|discriminate]. destruct (all (map f l)); discriminate.
  - change (removelast (b :: d :: q)) with (b :: removelast (d :: q)). cbn [map all]. now rewrite E, IH.
Qed.
(* a new list, and what a statement does that leaves the list alone *)
Theorem C133_new : forall W s l s', step W s (XAcis l) = Some s' -> exists n, s_var s' l = Some n /\ all_different W s' n /\ texts W s' n = Some [].
Proof.
  intros W s l s' H. cbn [step] in H. injection H as <-. exists (List.length (s_heap s)). cbn [fresh s_var]. rewrite upd_same. split; [reflexivity|].
  assert (T : texts W (fresh s l (NInss [])) (List.length (s_heap s)) = Some []) by (unfold texts; cbn [fresh s_heap]; now rewrite nth_snoc). split; [|exact T].
  exists []. split; [exact T|]. intros [|i] j y t L; discriminate.
Qed.
Lemma left_step : forall W s c s' n, reached W s -> all_different W s n -> step W s c = Some s' -> left_alone s c n -> all_different W s' n.
Proof.
  intros W s c s' n R (ts & T & D) H LA. pose proof (reached_wf W s R) as Wf. pose proof Wf as [C V]. apply pairs_fop in D. change (ForallOrdPairs (differ W) ts) in D.
  assert (Fin : forall ts', texts W s' n = Some ts' -> ForallOrdPairs (differ W) ts' -> all_different W s' n).
  { intros ts' T' D'. exists ts'. split; [exact T'|]. intros i j y t. now apply (fop_nth _ _ D'). }
  unfold texts in T. destruct (nth_error (s_heap s) n) as [d|] eqn:E; [|discriminate]. destruct d as [| | | | | | | |ks]; try discriminate. pose proof (nth_lt _ _ _ E) as LN.
  destruct LA as [LA|[(l & xs & -> & Sv)|(i & l & -> & Sv)]].
  - destruct (step_keeps W s c s' Wf H) as (W' & L & F & _). apply (Fin ts); [|exact D]. unfold texts.
    assert (S : same_from (s_heap s) (s_heap s') n) by (intros m M; apply F; [now apply (leads_lt (s_heap s) n)|now apply LA]).
    rewrite (same_here _ _ _ S), E. rewrite <- T. f_equal. apply map_ext_in. intros k K. unfold itext. rewrite (ins_frame (s_heap s)); [reflexivity|exact L|]. eapply same_kid; eauto.
  - cbn [step] in H. unfold at_var in H. rewrite Sv, E in H. destruct (push_inss W (s_var s) (s_heap s) ks xs) as [[h ks']|] eqn:P; [|discriminate]. injection H as <-.
    assert (M : forall k, In k ks -> (k < List.length (s_heap s))%nat) by (intros k K; apply (C _ _ _ E K)).
    destruct (push_inss_inv W _ _ _ _ _ _ _ C V M T D P) as (ts' & A' & D'). destruct (push_inss_ok W _ _ _ _ _ _ C V M P) as [G _].
    apply (Fin ts'); [|exact D']. unfold texts. cbn [s_heap].
    assert (E' : nth_error h n = Some (NInss ks)) by (rewrite (grown_old _ _ _ G LN); exact E). rewrite wr_same by (now apply nth_lt in E').
    rewrite <- A'. f_equal. apply map_ext. intros k. unfold itext. now rewrite (inss_wr h n ks ks' k E').
  - cbn [step] in H. unfold at_var in H. rewrite Sv, E in H. injection H as <-. apply (Fin (removelast ts)); [|now apply fop_pop].
    unfold texts. cbn [with_var with_node s_heap]. rewrite wr_same by exact LN. rewrite <- (all_pop _ _ _ T). f_equal. apply map_ext. intros k. unfold itext. now rewrite (inss_wr _ n ks _ k E).
Qed.
(* Missing from C133: programs that, once an instruction is in the list, change it or
   something it is made of other than through the list's Push and Pop; for these it is
   false (C133_refuted).  As in C40, the later text is compared condensed. *)
Theorem C133_partial : forall W q s s' n, reached W s -> all_different W s n -> run W s q = Some s' -> left_alone_run W s q n -> all_different W s' n.
Proof.
  intros W. induction q as [|c q IH]; intros s s' n R D H LA; cbn [run left_alone_run] in *; [now injection H as <-|].
  destruct LA as [L LA]. destruct (step W s c) as [s1|] eqn:E; [|discriminate]. apply (IH s1); [eapply reached_step; eauto|eapply left_step; eauto|exact H|exact LA].
Qed.
Theorem C133_refuted : ~ (forall W q s s' n, reached W s -> all_different W s n -> run W s q = Some s' -> all_different W s' n).
Proof.
  intros H. pose (p := [XSet 0 [AText "a"]; XSet 1 []; XAcis 2; XPushIns 2 [JVar 0; JVar 1]]).
  pose (s0 := match run W0 s_start p with Some s => s | None => s_start end).
  assert (R0 : run W0 s_start p = Some s0) by (vm_compute; reflexivity).
  pose (s1 := match step W0 s0 (XSet 1 [AText "a"]) with Some s => s | None => s_start end).
  assert (R1 : run W0 s0 [XSet 1 [AText "a"]] = Some s1) by (vm_compute; reflexivity).
  specialize (H W0 [XSet 1 [AText "a"]] s0 s1 6%nat). destruct H as (ts & T & D).
  - exists p. exact R0.
  - exists ["(version 3.0; acl ""a""; )"; "(version 3.0; acl """"; )"]. split; [vm_compute; reflexivity|].
    apply (fop_nth (differ W0)). constructor; [constructor; [vm_compute; reflexivity|constructor]|constructor; constructor].
  - exact R1.
  - assert (T' : texts W0 s1 6 = Some ["(version 3.0; acl ""a""; )"; "(version 3.0; acl ""a""; )"]) by (vm_compute; reflexivity).
    rewrite T' in T. injection T as <-. specialize (D 0%nat 1%nat _ _ ltac:(lia) eq_refl eq_refl). vm_compute in D. discriminate.
Qed.

(* ---- C134 ---- *)
Definition distinct2 (W : world) (x y : pbrec) : Prop := e_eqf (w_env W) (pbr_string W (Some x)) (pbr_string W (Some y)) = false.
Definition goodl (W : world) (h : heap) (l : list nat) : Prop :=
  exists vs, all (map (pbr_at h) l) = Some vs /\ Forall (fun r => pbr_valid (Some r) = true) vs /\ ForallOrdPairs (distinct2 W) vs.
Lemma push_pbr_inv W h l m l' : goodl W h l -> push_pbr W h l m = Some l' -> goodl W h l'.
Proof.
  intros (vs & A & F & D) H. unfold push_pbr in H. destruct m as [m|]; [|injection H as <-; exists vs; auto]. rewrite A in H. destruct (pbr_at h m) as [v|] eqn:T; [|discriminate].
  injection H as <-. unfold pbrs_policy. destruct (pbrs_contains W (map Some vs) (Some v)) eqn:X; [exists vs; auto|]. destruct (pbr_valid (Some v)) eqn:PV; [|exists vs; auto].
  exists (vs ++ [v])%list. split; [rewrite map_app; apply all_app; [exact A|]; cbn; now rewrite T|]. split; [apply Forall_app; auto|].
  apply fop_snoc; [exact D|]. intros y I. unfold distinct2. destruct (e_eqf _ _ _) eqn:E; [|reflexivity]. rewrite <- X. symmetry. unfold pbrs_contains. apply existsb_exists.
  exists (Some y). split; [now apply in_map|exact E].
Qed.
Lemma push_each_inv W h : forall ms l l', goodl W h l -> push_each W h l ms = Some l' -> goodl W h l'.
Proof.
  induction ms as [|m ms IH]; intros l l' G H; cbn [push_each] in H; [now injection H as <-|]. destruct (push_pbr W h l (Some m)) as [l1|] eqn:E; [|discriminate].
  apply (IH l1); [|exact H]. eapply push_pbr_inv; eauto.
Qed.
Lemma goodl_old W h h' l : closed h -> grown h h' -> (forall k, In k l -> (k < List.length h)%nat) -> goodl W h l -> goodl W h' l.
Proof.
  intros C G M (vs & A & F & D). exists vs. split; [|auto]. rewrite <- A. f_equal. apply map_ext_in. intros k I. apply pbr_old; auto.
Qed.
Lemma push_pbrs_inv W v : forall xs h l h' l', closed h -> (forall x, ref_in h (v x)) -> (forall k, In k l -> (k < List.length h)%nat) ->
  goodl W h l -> push_pbrs W v h l xs = Some (h', l') -> goodl W h' l'.
Proof.
  induction xs as [|x xs IH]; intros h l h' l' C V M I H; cbn [push_pbrs] in H; [now injection H as <- <-|].
  destruct x as [s|r|].
  - destruct (parsePBR W s) as [| |[x|]]; [discriminate|now injection H as <- <-| |eapply IH; eauto].
    pose proof (alloc_pbr_ok x h C) as AL. destruct (alloc_pbr h x) as [h1 m]. destruct AL as (G & L & _). destruct (push_pbr W h1 l (Some m)) as [l1|] eqn:E; [|discriminate].
    pose proof (grown_len _ _ G) as GL. eapply IH; [exact (grown_closed _ _ G)| | | |exact H].
    + intros y n Y. apply V in Y. lia.
    + intros k K. apply (push_pbr_in _ _ _ _ _ E) in K as [K|[= <-]]; [apply M in K; lia|exact L].
    + eapply push_pbr_inv; [|exact E]. now apply (goodl_old W h).
  - destruct (push_pbr W h l (v r)) as [l1|] eqn:E; [|discriminate]. eapply IH; [exact C|exact V| |eapply push_pbr_inv; eauto|exact H].
    intros k K. apply (push_pbr_in _ _ _ _ _ E) in K as [K|K]; [auto|]. now apply V in K.
  - eapply IH; eauto.
Qed.
Lemma sound_iff W s n : sound_list W s n <-> exists ks, nth_error (s_heap s) n = Some (NPbrs ks) /\ goodl W (s_heap s) ks.
Proof.
  unfold sound_list, rules_in. split.
  - intros (l & E & F & D). destruct (nth_error (s_heap s) n) as [d|]; [|discriminate]. destruct d as [| | | |ks| | | |]; try discriminate. exists ks. split; [reflexivity|].
    exists l. split; [exact E|]. split; [now apply Forall_forall|]. now apply pairs_fop.
  - intros (ks & -> & l & E & F & D). exists l. split; [exact E|]. split; [now apply Forall_forall|]. intros i j x y. now apply (fop_nth _ _ D).
Qed.
Lemma goodl_box W h n d e l : nth_error h n = Some d -> box d = true -> box e = true -> goodl W h l -> goodl W (wr h n e) l.
Proof.
  intros E D F (vs & A & X). exists vs. split; [|exact X]. rewrite <- A. f_equal. apply map_ext. intros k. apply box_pbr; [apply wr_len|]. now apply (box_wr h n d e).
Qed.
Lemma sound_set1 W s k x s' a t n : nth_error (s_heap s) k = Some (NIns a t n) -> sound_list W s n -> set1 W s k x = Some s' -> sound_list W s' n.
Proof.
  intros E S H. apply sound_iff in S as (ks & P & G). apply sound_iff. unfold set1 in H. rewrite E in H. destruct x as [y|u|x|r|l|].
  - injection H as <-. exists ks. cbn. split; [rewrite wr_other by congruence; exact P|]. eapply goodl_box; eauto.
  - destruct (nth_error (s_heap s) t) as [d|] eqn:T; [|injection H as <-; eauto]. destruct d as [| | | | | |b us| |]; injection H as <-; eauto.
    exists ks. cbn. split; [rewrite wr_other by congruence; exact P|]. eapply goodl_box; eauto.
  - destruct (nth_error (s_heap s) t) as [d|] eqn:T; [|injection H as <-; eauto]. destruct d as [| | | | | |b us| |]; injection H as <-; eauto.
    exists ks. cbn. split; [rewrite wr_other by congruence; exact P|]. eapply goodl_box; eauto.
  - rewrite P in H. destruct (push_pbr W (s_heap s) ks (s_var s r)) as [ks'|] eqn:Q; [|discriminate]. injection H as <-. exists ks'. cbn. split; [apply wr_same; now apply nth_lt in P|].
    eapply goodl_box; eauto. eapply push_pbr_inv; eauto.
  - rewrite P in H. destruct (push_each W (s_heap s) ks (pbrs_of s l)) as [ks'|] eqn:Q; [|discriminate]. injection H as <-. exists ks'. cbn. split; [apply wr_same; now apply nth_lt in P|].
    eapply goodl_box; eauto. eapply push_each_inv; eauto.
  - injection H as <-. eauto.
Qed.
Lemma sound_sets W : forall xs s k s' a t n, wf s -> nth_error (s_heap s) k = Some (NIns a t n) -> sound_list W s n -> sets W s k xs = Some s' -> sound_list W s' n.
Proof.
  induction xs as [|x xs IH]; intros s k s' a t n Wf E S H; cbn [sets] in H; [now injection H as <-|]. destruct (set1 W s k x) as [s1|] eqn:S1; [|discriminate].
  destruct (set1_keeps W _ _ _ _ _ _ _ Wf E S1) as (K & _ & a' & E'). apply (IH s1 k s' a' t n); [apply K|exact E'| |exact H]. exact (sound_set1 W s k x s1 a t n E S S1).
Qed.
(* new lists of permission-bind rules: PBRs(), ACI() and Parse *)
Theorem C134_new : forall W s s', reached W s ->
  (forall l, step W s (XPbrs l) = Some s' -> exists n, s_var s' l = Some n /\ sound_list W s' n) /\
  (forall i xs, s_var s i = None -> step W s (XSet i xs) = Some s' ->
     exists k a t n, s_var s' i = Some k /\ nth_error (s_heap s') k = Some (NIns a t n) /\ sound_list W s' n) /\
  (forall i raw a0, parseInstruction W raw = Gives (Some a0) -> step W s (XParse i raw) = Some s' ->
     exists k a t n, s_var s' i = Some k /\ nth_error (s_heap s') k = Some (NIns a t n) /\ sound_list W s' n).
Proof.
  intros W s s' R. pose proof (reached_wf W s R) as Wf. split; [|split].
  - intros l H. cbn [step] in H. injection H as <-. exists (List.length (s_heap s)). cbn [fresh s_var]. rewrite upd_same. split; [reflexivity|].
    apply sound_iff. exists []. cbn [fresh s_heap]. rewrite nth_snoc. split; [reflexivity|]. exists []. split; [reflexivity|]. split; constructor.
  - intros i xs Z H. cbn [step] in H. unfold at_var in H. rewrite Z in H. set (k := List.length (s_heap s)) in *.
    assert (W1 : wf (new_ins s i)) by (apply (new_ins_keeps s i [] Wf)).
    assert (E : nth_error (s_heap (new_ins s i)) (S (S k)) = Some (NIns "" k (S k))) by (apply nth_app3).
    assert (S0 : sound_list W (new_ins s i) (S k)).
    { apply sound_iff. exists []. split; [cbn [new_ins s_heap]; rewrite nth_error_app2 by (unfold k; lia); now replace (S k - List.length (s_heap s))%nat with 1%nat by (unfold k; lia)|].
      exists []. split; [reflexivity|]. split; constructor. }
    pose proof (sound_sets W xs _ _ _ _ _ _ W1 E S0 H) as S1.
    assert (X : exists a, nth_error (s_heap s') (S (S k)) = Some (NIns a k (S k)) /\ s_var s' = s_var (new_ins s i)).
    { clear - H E W1. revert H E W1. generalize (new_ins s i) "". induction xs as [|x xs IH]; intros s0 a H E W1; cbn [sets] in H; [injection H as <-; eauto|].
      destruct (set1 W s0 (S (S k)) x) as [s1|] eqn:S1; [|discriminate]. destruct (set1_keeps W _ _ _ _ _ _ _ W1 E S1) as (K & Vv & a' & E'). rewrite <- Vv.
      apply (IH s1 a' H E'). apply K. }
    destruct X as (a & X & Vv). exists (S (S k)), a, k, (S k). rewrite Vv. cbn [new_ins s_var]. rewrite upd_same. auto.
  - intros i raw a0 P H. cbn [step] in H. rewrite P in H. pose proof (alloc_ins_ok a0 (s_heap s) (proj1 Wf)) as A. destruct (alloc_ins (s_heap s) a0) as [h n]. injection H as <-.
    destruct A as (G & L & I). specialize (I (parse_good W raw a0 P)). unfold ins_at in I. destruct (nth_error h n) as [d|] eqn:E; [|discriminate]. destruct d as [| | | | | | |a t p|]; try discriminate.
    exists n, a, t, p. cbn [s_var s_heap]. rewrite upd_same. split; [reflexivity|]. split; [exact E|]. destruct (trs_at h t) as [[b l]|]; [|discriminate].
    destruct (pbrs_at h p) as [q|] eqn:Q; [|discriminate]. injection I as _ <-. unfold pbrs_at in Q. apply sound_iff. cbn [s_heap]. destruct (nth_error h p) as [d|]; [|discriminate].
    destruct d as [| | | |ks| | | |]; try discriminate. exists ks. split; [reflexivity|]. destruct (all (map (pbr_at h) ks)) as [vs|] eqn:AV; [|discriminate]. injection Q as <-.
    exists vs. split; [exact AV|].
    assert (PI : pl_inv W (map Some vs)).
    { revert P. unfold parseInstruction. destruct (w_ins W (condenseWHSP raw)) as [x|]; [|discriminate]. destruct (processTRs W (ai_trs x)) as [[tt okt]|]; [|discriminate].
      destruct (processPBRs W [] (ai_pbrs x)) as [[pp okp]|]; [|discriminate]. cbn [ins_set ins_valid]. intros [= _ _ <-]. unfold instr_set. cbn [fold_left assertInstruction i_pbrs instr_new].
      assert (N : pl_inv W []) by (split; [easy|constructor]). revert N. unfold setLabel. cbn [i_label i_trs i_pbrs]. destruct (_ && _)%bool; cbn [i_pbrs]; generalize (@nil pbr);
        (induction pp as [|r pp IH]; intros l0 N; [exact N|]; cbn [fold_left]; apply IH; now apply (pl_push1_inv W l0 (PLRule r))). }
    destruct PI as [PV PD]. split; [apply Forall_forall; intros r I; apply PV; now apply in_map|].
    apply pairs_fop. intros i0 j x y LT X Y. pose proof (fop_pairs _ _ PD i0 j (Some x) (Some y)) as D. apply D; [| |exact LT]; now apply map_nth_error.
Qed.
(* Missing from C134: programs that, once a rule is in the list, change it or its
   permission or bind rule through another name; for these it is false (C134_refuted). *)
Theorem C134_partial : forall W q s s' n, reached W s -> sound_list W s n -> run W s q = Some s' -> left_alone_pbrs_run W s q n -> sound_list W s' n.
Proof.
  intros W. induction q as [|c q IH]; intros s s' n R D H LA; cbn [run left_alone_pbrs_run] in *; [now injection H as <-|].
  destruct LA as [LA LR]. destruct (step W s c) as [s1|] eqn:E; [|discriminate]. apply (IH s1); [eapply reached_step; eauto| |exact H|exact LR]. clear IH H LR.
  pose proof (reached_wf W s R) as Wf. pose proof Wf as [C V]. pose proof D as D0. apply sound_iff in D as (ks & P & G). pose proof (nth_lt _ _ _ P) as LN.
  assert (M : forall k, In k ks -> (k < List.length (s_heap s))%nat) by (intros k K; apply (C _ _ _ P K)).
  destruct LA as [LA|[(l & xs & -> & Sv)|[(i & l & -> & Sv)|(i & xs & k & a & t & -> & Sv & K)]]].
  - destruct (step_keeps W s c s1 Wf E) as (W' & L & F & _). apply sound_iff. exists ks.
    assert (S : same_from (s_heap s) (s_heap s1) n) by (intros m MM; apply F; [now apply (leads_lt (s_heap s) n)|now apply LA]).
    rewrite (same_here _ _ _ S). split; [exact P|]. destruct G as (vs & A & X). exists vs. split; [|exact X]. rewrite <- A. f_equal. apply map_ext_in. intros q0 I.
    apply pbr_frame; [exact L|]. eapply same_kid; eauto.
  - cbn [step] in E. unfold at_var in E. rewrite Sv, P in E. destruct (push_pbrs W (s_var s) (s_heap s) ks xs) as [[h ks']|] eqn:Q; [|discriminate]. injection E as <-.
    pose proof (push_pbrs_inv W _ _ _ _ _ _ C V M G Q) as G'. destruct (push_pbrs_ok W _ _ _ _ _ _ C V M Q) as [GR _]. apply sound_iff. exists ks'. cbn [s_heap].
    assert (E' : nth_error h n = Some (NPbrs ks)) by (rewrite (grown_old _ _ _ GR LN); exact P). rewrite wr_same by (now apply nth_lt in E'). split; [reflexivity|]. eapply goodl_box; eauto.
  - cbn [step] in E. unfold at_var in E. rewrite Sv, P in E. injection E as <-. apply sound_iff. exists (removelast ks). cbn [with_var with_node s_heap]. rewrite wr_same by exact LN.
    split; [reflexivity|]. eapply goodl_box; eauto. destruct G as (vs & A & F & DD). exists (removelast vs). split; [now apply all_pop|]. split; [|now apply fop_pop].
    apply Forall_forall. intros r I. rewrite Forall_forall in F. apply F. now apply removelast_in.
  - cbn [step] in E. unfold at_var in E. rewrite Sv, K in E. eapply sound_sets; eauto.
Qed.
Definition pbrProg : list stmt :=
  [XPerm 0 true [MRights.AStr "read"]; XPerm 1 true [MRights.AStr "write"]; XRule 2 cA; XPbr 3 0 (BRuleVar 2); XPbr 4 1 (BRuleVar 2); XPbrs 5; XPushPbr 5 [LRule 3; LRule 4]].
Definition pbrState : st := match run W0 s_start pbrProg with Some s => s | None => s_start end.
Definition pbrAfter : list stmt := [XShift 9 1 false [MRights.AStr "write"]; XShift 9 9 true [MRights.AStr "read"]].
Theorem C134_refuted : ~ (forall W q s s' n, reached W s -> sound_list W s n -> run W s q = Some s' -> sound_list W s' n).
Proof.
  intros H. pose (s1 := match run W0 pbrState pbrAfter with Some s => s | None => s_start end).
  assert (R1 : run W0 pbrState pbrAfter = Some s1) by (vm_compute; reflexivity).
  pose (v0 := match rules_in pbrState 5 with Some l => l | None => [] end). assert (V0 : rules_in pbrState 5 = Some v0) by (vm_compute; reflexivity).
  pose (v1 := match rules_in s1 5 with Some l => l | None => [] end). assert (V1 : rules_in s1 5 = Some v1) by (vm_compute; reflexivity).
  specialize (H W0 pbrAfter pbrState s1 5%nat). destruct H as (l & T & _ & D).
  - exists pbrProg. vm_compute. reflexivity.
  - exists v0. split; [exact V0|]. split.
    + intros r I. vm_compute in I. destruct I as [<-|[<-|[]]]; vm_compute; reflexivity.
    + apply (fop_nth (distinct2 W0)). pose (a := nth 0 v0 (MkPB PNil None)). pose (b := nth 1 v0 (MkPB PNil None)).
      assert (X : v0 = [a; b]) by (vm_compute; reflexivity). assert (Y : distinct2 W0 a b) by (vm_compute; reflexivity). rewrite X.
      constructor; [constructor; [exact Y|constructor]|constructor; constructor].
  - exact R1.
  - rewrite V1 in T. injection T as <-. pose (a := nth 0 v1 (MkPB PNil None)). pose (b := nth 1 v1 (MkPB PNil None)).
    assert (X : nth_error v1 0 = Some a) by (vm_compute; reflexivity). assert (Y : nth_error v1 1 = Some b) by (vm_compute; reflexivity).
    specialize (D 0%nat 1%nat _ _ ltac:(lia) X Y). assert (Z : e_eqf (w_env W0) (pbr_string W0 (Some a)) (pbr_string W0 (Some b)) = true) by (vm_compute; reflexivity). congruence.
Qed.

(* a method called on x is no concern of a variable that shares no object with x *)
Theorem C132_apart : forall W s c s' x v, reached W s -> receiver c = Some x -> apart s x v -> ~ In v (assigned c) -> step W s c = Some s' -> shown W s' v = shown W s v.
Proof.
  intros W s c s' x v R X A N H. eapply C132_frame; [exact R|exact H|]. intros [I|(n & m & V & D & T)]; [exact (N I)|]. unfold touched in T. rewrite X in T.
  destruct (s_var s x) as [k|] eqn:K; [|destruct T]. apply (A k n m K V); [|exact D]. destruct (nth_error (s_heap s) k) as [d|] eqn:E; [|destruct T as [<-|[]]; constructor].
  destruct d as [| | | | | | |a t p|]; try (destruct T as [<-|[]]; constructor). destruct T as [<-|[<-|[<-|[]]]]; [constructor| |]; (eapply L_down; [exact E| |constructor]); cbn; auto.
Qed.

(* ---------------- C136: validity survives everything ---------------- *)
Theorem C136_valid : forall W s n l, reached W s -> rules_in s n = Some l -> forall r, In r l -> pbr_valid (Some r) = true.
Proof.
  intros W s n l [p H] R r I. assert (V : inv (s_heap s)) by (eapply run_inv; [exact wf_start| |exact H]; intros m ks k E; destruct m; discriminate).
  unfold rules_in in R. destruct (nth_error (s_heap s) n) as [d|] eqn:E; [|discriminate]. destruct d as [| | | |ks| | | |]; try discriminate.
  assert (K : exists k, In k ks /\ pbr_at (s_heap s) k = Some r).
  { clear E. revert l R I. induction ks as [|k ks IH]; intros l R I; cbn [map all] in R; [injection R as <-; destruct I|]. destruct (pbr_at (s_heap s) k) as [v|] eqn:K; [|discriminate].
    destruct (all (map (pbr_at (s_heap s)) ks)) as [q|] eqn:Q; [|discriminate]. injection R as <-. destruct I as [<-|I]; [exists k; split; [now left|exact K]|].
    destruct (IH q eq_refl I) as (k' & A & B). exists k'. split; [now right|exact B]. }
  destruct K as (k & A & B). eapply full_valid; [|exact B]. eapply V; eauto.
Qed.
(* the same for the rules of an instruction, as PBRs gives them *)
Theorem C136_instruction : forall W s n b a, reached W s -> ins_at (s_heap s) n = Some (b, a) -> forall r, In r (i_pbrs a) -> pbr_valid r = true.
Proof.
  intros W s n b a R H r I. unfold ins_at in H. destruct (nth_error (s_heap s) n) as [d|]; [|discriminate]. destruct d as [| | | | | | |x t p|]; try discriminate.
  destruct (trs_at (s_heap s) t) as [[b0 l]|]; [|discriminate]. destruct (pbrs_at (s_heap s) p) as [q|] eqn:P; [|discriminate]. injection H as _ <-. cbn in I.
  assert (Q : exists l, rules_in s p = Some l /\ q = map Some l).
  { unfold pbrs_at in P. unfold rules_in. destruct (nth_error (s_heap s) p) as [d|]; [|discriminate]. destruct d; try discriminate. destruct (all _) as [v|]; [|discriminate]. injection P as <-. eauto. }
  destruct Q as (v & Q & ->). apply in_map_iff in I as (x0 & <- & I). eapply C136_valid; eauto.
Qed.

(* ---------------- C135: Set, by reference, is Set on values ---------------- *)
Lemma push_tr_at h l m : map (tr_at h) (push_tr h l (Some m)) = trs_push1 (map (tr_at h) l) (TRule (tr_at h m)).
Proof. cbn [push_tr trs_push1]. unfold push1. rewrite map_length. destruct (_ && _)%bool; [now rewrite map_app|reflexivity]. Qed.
Lemma target1_at h : forall ms l, map (tr_at h) (fold_left (target1 h) ms l) = fold_left targetPush1 (map (tr_at h) ms) (map (tr_at h) l).
Proof.
  induction ms as [|m ms IH]; intros l; [reflexivity|]. cbn [fold_left map]. rewrite IH. f_equal. unfold target1, targetPush1. destruct (negb _); [apply push_tr_at|reflexivity].
Qed.
Lemma push_pbr_at W h l vs m l' : all (map (pbr_at h) l) = Some vs -> push_pbr W h l (Some m) = Some l' ->
  exists v ws, pbr_at h m = Some v /\ all (map (pbr_at h) l') = Some ws /\ map Some ws = pbrs_push1 W (map Some vs) (PLRule (Some v)).
Proof.
  intros A H. cbn [push_pbr] in H. rewrite A in H. destruct (pbr_at h m) as [v|] eqn:E; [|discriminate]. injection H as <-. exists v. cbn [pbrs_push1]. unfold push1.
  destruct (pbrs_policy W (map Some vs) (Some v)); [|now exists vs]. exists (vs ++ [v])%list. split; [reflexivity|]. rewrite !map_app. split; [|reflexivity].
  apply all_app; [exact A|]. cbn. now rewrite E.
Qed.
Lemma push_each_at W h : forall ms l vs l', all (map (pbr_at h) l) = Some vs -> push_each W h l ms = Some l' ->
  exists ns ws, all (map (pbr_at h) ms) = Some ns /\ all (map (pbr_at h) l') = Some ws /\
    map Some ws = fold_left (fun l r => pbrs_push1 W l (PLRule r)) (map Some ns) (map Some vs).
Proof.
  induction ms as [|m ms IH]; intros l vs l' A H; cbn [push_each] in H; [injection H as <-; exists [], vs; now split|].
  destruct (push_pbr W h l (Some m)) as [l1|] eqn:E; [|discriminate]. destruct (push_pbr_at W h l vs m l1 A E) as (v & ws & M & A1 & Q). destruct (IH l1 ws l' A1 H) as (ns & us & N & B & R).
  exists (v :: ns), us. cbn [map all]. rewrite M, N. split; [reflexivity|]. split; [exact B|]. cbn [map fold_left]. rewrite R. now rewrite Q.
Qed.
Lemma ins_parts h n b a : ins_at h n = Some (b, a) -> exists t p kt kp vs, nth_error h n = Some (NIns (i_label a) t p) /\ nth_error h t = Some (NTrs b kt) /\
  i_trs a = map (tr_at h) kt /\ nth_error h p = Some (NPbrs kp) /\ all (map (pbr_at h) kp) = Some vs /\ i_pbrs a = map Some vs.
Proof.
  unfold ins_at, trs_at, pbrs_at. destruct (nth_error h n) as [d|] eqn:E; [|discriminate]. destruct d as [| | | | | | |x t p|]; try discriminate.
  destruct (nth_error h t) as [d|] eqn:T; [|discriminate]. destruct d as [| | | | | |b0 kt| |]; try discriminate. destruct (nth_error h p) as [d|] eqn:P; [|discriminate].
  destruct d as [| | | |kp| | | |]; try discriminate. destruct (all (map (pbr_at h) kp)) as [vs|] eqn:A; [|discriminate]. intros [= <- <-]. exists t, p, kt, kp, vs. cbn. repeat apply conj; auto.
Qed.
Lemma ins_build h n x t p b kt kp vs : nth_error h n = Some (NIns x t p) -> nth_error h t = Some (NTrs b kt) -> nth_error h p = Some (NPbrs kp) -> all (map (pbr_at h) kp) = Some vs ->
  ins_at h n = Some (b, MkIns x (map (tr_at h) kt) (map Some vs)).
Proof. intros E T P A. unfold ins_at, trs_at, pbrs_at. now rewrite E, T, P, A. Qed.
Lemma set1_value W s n x s' b a : set1 W s n x = Some s' -> ins_at (s_heap s) n = Some (b, a) ->
  exists v, set_value s x = Some v /\ ins_at (s_heap s') n = Some (b, assertInstruction W a v).
Proof.
  intros H I. destruct (ins_parts _ _ _ _ I) as (t & p & kt & kp & vs & E & T & TL & P & A & PL). destruct a as [la lt lp]. cbn [i_label i_trs i_pbrs] in *. subst lt lp.
  unfold set1 in H. rewrite E in H. pose proof (nth_lt _ _ _ E) as LE. pose proof (nth_lt _ _ _ T) as LT. pose proof (nth_lt _ _ _ P) as LP.
  assert (NT : n <> t) by congruence. assert (NP : n <> p) by congruence. assert (TP : t <> p) by congruence.
  destruct x as [y|u|x|r|l|]; cbn [set_value].
  - injection H as <-. exists (IStr y). split; [reflexivity|]. cbn [s_heap with_node]. pose proof (box_wr (s_heap s) n _ (NIns (label_set la y) t p) E eq_refl eq_refl) as B.
    pose proof (wr_len (s_heap s) n (NIns (label_set la y) t p)) as Len.
    rewrite (ins_build _ n (label_set la y) t p b kt kp vs); [| now apply wr_same|rewrite wr_other by congruence; exact T|rewrite wr_other by congruence; exact P|].
    + rewrite (map_ext _ _ (box_tr _ _ B)). cbn [assertInstruction]. unfold label_set, setLabel. cbn. destruct (_ && _)%bool; reflexivity.
    + rewrite (map_ext _ _ (box_pbr _ _ Len B)). exact A.
  - rewrite T in H. injection H as <-. eexists. split; [reflexivity|]. cbn [s_heap with_node]. set (k' := fold_left _ _ _). pose proof (box_wr (s_heap s) t _ (NTrs b k') T eq_refl eq_refl) as B.
    pose proof (wr_len (s_heap s) t (NTrs b k')) as Len.
    rewrite (ins_build _ n la t p b k' kp vs); [|rewrite wr_other by congruence; exact E|now apply wr_same|rewrite wr_other by congruence; exact P|].
    + rewrite (map_ext _ _ (box_tr _ _ B)). cbn [assertInstruction i_label i_trs i_pbrs]. unfold k'. now rewrite target1_at.
    + rewrite (map_ext _ _ (box_pbr _ _ Len B)). exact A.
  - rewrite T in H. injection H as <-. eexists. split; [reflexivity|]. cbn [s_heap with_node]. set (k' := push_tr _ _ _). pose proof (box_wr (s_heap s) t _ (NTrs b k') T eq_refl eq_refl) as B.
    pose proof (wr_len (s_heap s) t (NTrs b k')) as Len.
    rewrite (ins_build _ n la t p b k' kp vs); [|rewrite wr_other by congruence; exact E|now apply wr_same|rewrite wr_other by congruence; exact P|].
    + rewrite (map_ext _ _ (box_tr _ _ B)). cbn [assertInstruction i_label i_trs i_pbrs]. unfold k'. destruct (s_var s x) as [m|]; [now rewrite push_tr_at|].
      cbn [trs_push1 push_tr]. unfold push1. cbn [trs_policy]. now rewrite andb_false_r.
    + rewrite (map_ext _ _ (box_pbr _ _ Len B)). exact A.
  - rewrite P in H. destruct (push_pbr W (s_heap s) kp (s_var s r)) as [k'|] eqn:Q; [|discriminate]. injection H as <-. cbn [s_heap with_node].
    pose proof (box_wr (s_heap s) p _ (NPbrs k') P eq_refl eq_refl) as B. pose proof (wr_len (s_heap s) p (NPbrs k')) as Len.
    assert (X : exists v ws, match s_var s r with Some n => option_map (fun v => IPBR (Some v)) (pbr_at (s_heap s) n) | None => Some (IPBR None) end = Some (IPBR v) /\
      all (map (pbr_at (s_heap s)) k') = Some ws /\ map Some ws = pbrs_push1 W (map Some vs) (PLRule v)).
    { destruct (s_var s r) as [m|].
      - destruct (push_pbr_at W _ _ _ _ _ A Q) as (v & ws & M & A1 & R). rewrite M. exists (Some v), ws. auto.
      - cbn [push_pbr] in Q. injection Q as <-. exists None, vs. split; [reflexivity|]. split; [exact A|]. cbn [pbrs_push1]. unfold push1.
        replace (pbrs_policy W (map Some vs) None) with false; [reflexivity|]. unfold pbrs_policy. now destruct (pbrs_contains _ _ _). }
    destruct X as (v & ws & S & A1 & R). rewrite S. eexists. split; [reflexivity|].
    rewrite (ins_build _ n la t p b kt k' ws); [|rewrite wr_other by congruence; exact E|rewrite wr_other by congruence; exact T|now apply wr_same|].
    + rewrite (map_ext _ _ (box_tr _ _ B)). cbn [assertInstruction i_label i_trs i_pbrs]. now rewrite R.
    + rewrite (map_ext _ _ (box_pbr _ _ Len B)). exact A1.
  - rewrite P in H. destruct (push_each W (s_heap s) kp (pbrs_of s l)) as [k'|] eqn:Q; [|discriminate]. injection H as <-. cbn [s_heap with_node].
    pose proof (box_wr (s_heap s) p _ (NPbrs k') P eq_refl eq_refl) as B. pose proof (wr_len (s_heap s) p (NPbrs k')) as Len.
    destruct (push_each_at W _ _ _ _ _ A Q) as (ns & ws & N & A1 & R). rewrite N. cbn [option_map]. eexists. split; [reflexivity|].
    rewrite (ins_build _ n la t p b kt k' ws); [|rewrite wr_other by congruence; exact E|rewrite wr_other by congruence; exact T|now apply wr_same|].
    + rewrite (map_ext _ _ (box_tr _ _ B)). cbn [assertInstruction i_label i_trs i_pbrs]. now rewrite R.
    + rewrite (map_ext _ _ (box_pbr _ _ Len B)). exact A1.
  - injection H as <-. exists IOther. auto.
Qed.
(* one argument *)
Theorem C135_set : forall W s i n b a x s', s_var s i = Some n -> ins_at (s_heap s) n = Some (b, a) -> step W s (XSet i [x]) = Some s' ->
  s_var s' = s_var s /\ exists v, set_value s x = Some v /\ ins_at (s_heap s') n = Some (b, assertInstruction W a v).
Proof.
  intros W s i n b a x s' V I H. destruct (ins_parts _ _ _ _ I) as (t & p & kt & kp & vs & E & _). cbn [step] in H. unfold at_var in H. rewrite V, E in H. cbn [sets] in H.
  destruct (set1 W s n x) as [s1|] eqn:S1; [|discriminate]. injection H as <-. split; [|eapply set1_value; eauto].
  unfold set1 in S1. rewrite E in S1. repeat match type of S1 with context [match ?e with _ => _ end] => destruct e end; try discriminate; injection S1 as <-; reflexivity.
Qed.
(* several arguments are taken one after the other *)
Theorem C135_args : forall W s i x xs, step W s (XSet i (x :: xs)) = match step W s (XSet i [x]) with Some s' => step W s' (XSet i xs) | None => None end.
Proof.
  intros W s i x xs. cbn [step]. set (K := fun s n => exists a t p, nth_error (s_heap s) n = Some (NIns a t p) /\ s_var s i = Some n).
  assert (X : forall s n, K s n -> sets W s n (x :: xs) = match sets W s n [x] with Some s' => match at_var s' i with Some (n, NIns _ _ _) => sets W s' n xs
     | _ => sets W (new_ins s' i) (S (S (List.length (s_heap s')))) xs end | None => None end).
  { intros s0 n (a & t & p & E & V). cbn [sets]. destruct (set1 W s0 n x) as [s1|] eqn:S1; [|reflexivity].
    assert (Q : s_var s1 = s_var s0 /\ exists a', nth_error (s_heap s1) n = Some (NIns a' t p)).
    { unfold set1 in S1. rewrite E in S1. pose proof (nth_lt _ _ _ E) as L. destruct x as [y|u|y|r|l|].
      - injection S1 as <-. split; [reflexivity|]. cbn. rewrite wr_same by exact L. eauto.
      - destruct (nth_error (s_heap s0) t) as [d|] eqn:T; [|injection S1 as <-; eauto]. destruct d; injection S1 as <-; try (split; [reflexivity|eauto]). cbn. rewrite wr_other by congruence. eauto.
      - destruct (nth_error (s_heap s0) t) as [d|] eqn:T; [|injection S1 as <-; eauto]. destruct d; injection S1 as <-; try (split; [reflexivity|eauto]). cbn. rewrite wr_other by congruence. eauto.
      - destruct (nth_error (s_heap s0) p) as [d|] eqn:T; [|injection S1 as <-; eauto]. destruct d; try (injection S1 as <-; split; [reflexivity|eauto]). destruct (push_pbr _ _ _ _); [|discriminate].
        injection S1 as <-. split; [reflexivity|]. cbn. rewrite wr_other by congruence. eauto.
      - destruct (nth_error (s_heap s0) p) as [d|] eqn:T; [|injection S1 as <-; eauto]. destruct d; try (injection S1 as <-; split; [reflexivity|eauto]). destruct (push_each _ _ _ _); [|discriminate].
        injection S1 as <-. split; [reflexivity|]. cbn. rewrite wr_other by congruence. eauto.
      - injection S1 as <-. eauto. }
    destruct Q as (V1 & a' & E1). unfold at_var. rewrite V1, V, E1. reflexivity. }
  assert (N : K (new_ins s i) (S (S (List.length (s_heap s))))).
  { exists "", (List.length (s_heap s)), (S (List.length (s_heap s))). cbn [new_ins s_heap s_var]. split; [|now rewrite upd_same]. rewrite nth_error_app2 by lia. now replace (S (S (List.length (s_heap s))) - List.length (s_heap s))%nat with 2%nat by lia. }
  destruct (at_var s i) as [[n d]|] eqn:A; [|now apply X]. destruct d as [| | | | | | |a t p|]; try (now apply X). apply at_var_some in A as [V E]. apply X. exists a, t, p. auto.
Qed.
(* an instruction that is zero first becomes a new empty one, also without arguments *)
Theorem C135_zero : forall W s i xs, s_var s i = None -> exists s1 n, step W s (XSet i []) = Some s1 /\ s_var s1 i = Some n /\ n = (List.length (s_heap s) + 2)%nat /\
  ins_at (s_heap s1) n = Some (false, instr_new) /\ step W s (XSet i xs) = step W s1 (XSet i xs).
Proof.
  intros W s i xs V. exists (new_ins s i), (S (S (List.length (s_heap s)))). cbn [step]. unfold at_var. rewrite V. split; [reflexivity|]. split; [cbn; now rewrite upd_same|]. split; [lia|].
  assert (E : forall j d, nth_error [NTrs false []; NPbrs []; NIns "" (List.length (s_heap s)) (S (List.length (s_heap s)))] j = Some d -> nth_error (s_heap (new_ins s i)) (List.length (s_heap s) + j) = Some d).
  { intros j d J. cbn [new_ins s_heap]. rewrite nth_error_app2 by lia. now replace (List.length (s_heap s) + j - List.length (s_heap s))%nat with j by lia. }
  pose proof (E 0%nat _ eq_refl) as E0. pose proof (E 1%nat _ eq_refl) as E1. pose proof (E 2%nat _ eq_refl) as E2. rewrite !Nat.add_succ_r, Nat.add_0_r in *.
  split; [unfold ins_at, trs_at, pbrs_at; rewrite E2, E0, E1; reflexivity|]. cbn [s_var new_ins]. rewrite upd_same. cbn [s_heap new_ins] in E2 |- *. rewrite E2. reflexivity.
Qed.
(* Push on a list of instructions: appended exactly when no member prints, case apart,
   the condensed text *)
Theorem C135_push : forall W s l n ks i m ts t s', s_var s l = Some n -> nth_error (s_heap s) n = Some (NInss ks) -> s_var s i = Some m ->
  texts W s n = Some ts -> itext W (s_heap s) m = Some t -> step W s (XPushIns l [JVar i]) = Some s' ->
  s_var s' = s_var s /\ texts W s' n = Some (if existsb (fun y => e_eqf (w_env W) y (condenseWHSP t)) ts then ts else (ts ++ [t])%list) /\
  nth_error (s_heap s') n = Some (NInss (if existsb (fun y => e_eqf (w_env W) y (condenseWHSP t)) ts then ks else (ks ++ [m])%list)).
Proof.
  intros W s l n ks i m ts t s' V E M T I H. unfold texts in T. rewrite E in T. cbn [step] in H. unfold at_var in H. rewrite V, E in H. cbn [push_inss] in H. rewrite M in H. cbn [push_ins] in H.
  rewrite T, I in H. injection H as <-. cbn [with_node s_var s_heap]. split; [reflexivity|]. pose proof (nth_lt _ _ _ E) as L.
  assert (J : forall k ks', itext W (wr (s_heap s) n (NInss ks')) k = itext W (s_heap s) k) by (intros; unfold itext; now rewrite (inss_wr _ _ _ _ _ E)).
  unfold texts. cbn [s_heap]. rewrite !wr_same by exact L. split; [|reflexivity]. destruct (existsb _ ts); rewrite (map_ext _ _ (fun k => J k _)); [exact T|]. rewrite map_app. apply all_app; [exact T|]. cbn. now rewrite I.
Qed.
(* ---------------- concrete cases ---------------- *)
Lemma leads_in h L : (forall k d, In k L -> nth_error h k = Some d -> forall j, In j (kids d) -> In j L) -> forall n m, leads h n m -> In n L -> In m L.
Proof. intros C n m D. induction D as [n|n d k m E K D IH]; intros I; [exact I|]. apply IH. eapply C; eauto. Qed.
(* two instructions and a list with the first; i0 has a target rule (node 0) and a
   permission-bind rule made of a permission (1) and a bind rule (2) *)
Definition wProg : list stmt :=
  [XTr 10 (match tScope with Some c => c | None => cA end); XPerm 11 true [MRights.AStr "read"]; XRule 12 cA; XPbr 13 11 (BRuleVar 12); XSet 0 [AText "first"; ATR 10; APBR 13]; XSet 1 [AText "second"];
   XAcis 2; XPushIns 2 [JVar 0]].
Definition wState : st := match run W0 s_start wProg with Some s => s | None => s_start end.
Example w_reached : reached W0 wState.
Proof. exists wProg. vm_compute. reflexivity. Qed.
(* changing the permission of i0's rule is not i1's concern, but it is i0's and the list's *)
Example C132_witness : exists s', step W0 wState (XShift 11 11 true [MRights.AStr "write"]) = Some s' /\
  ~ concerns wState (XShift 11 11 true [MRights.AStr "write"]) 1 /\ shown W0 s' 1 = shown W0 wState 1 /\ shown W0 wState 1 <> None /\
  shown W0 s' 0 <> shown W0 wState 0 /\ shown W0 s' 2 <> shown W0 wState 2.
Proof.
  eexists. split; [vm_compute; reflexivity|]. split.
  - intros [[H|[]]|(n & m & V & D & T)]; [discriminate|]. vm_compute in V. injection V as <-. vm_compute in T. destruct T as [<-|[]].
    assert (X : In 1%nat [9; 7; 8]%nat); [|vm_compute in X; intuition discriminate].
    eapply (leads_in (s_heap wState) [9; 7; 8]%nat); [|exact D|now left]. intros k d [<-|[<-|[<-|[]]]] E j J; vm_compute in E; injection E as <-; vm_compute in J |- *; intuition.
  - repeat apply conj; vm_compute; (reflexivity || discriminate).
Qed.
(* C133, C134: the list of wState, and the rules of its instruction, are as required *)
Example C133_witness : all_different W0 wState 10 /\ exists s', run W0 wState [XPushIns 2 [JVar 1; JVar 0]; XPopIns 3 2] = Some s' /\
  left_alone_run W0 wState [XPushIns 2 [JVar 1; JVar 0]; XPopIns 3 2] 10 /\ texts W0 s' 10 = texts W0 wState 10.
Proof.
  split.
  - eexists. split; [vm_compute; reflexivity|]. intros i j y t L Y T. destruct j as [|j]; [lia|]. destruct j; discriminate T.
  - eexists. split; [vm_compute; reflexivity|]. split; [|vm_compute; reflexivity]. cbn [left_alone_run]. split; [right; left; eexists; eexists; split; [reflexivity|vm_compute; reflexivity]|].
    destruct (step W0 wState (XPushIns 2 [JVar 1; JVar 0])) as [s1|] eqn:E; [|exact I]. split; [|now destruct (step W0 s1 _)].
    right; right. eexists; eexists. split; [reflexivity|]. vm_compute in E. injection E as <-. reflexivity.
Qed.
Example C134_witness : sound_list W0 wState 5 /\ exists s', run W0 wState [XPushPbr 20 []; XSet 0 [APBR 13]] = Some s' /\ left_alone_pbrs_run W0 wState [XPushPbr 20 []; XSet 0 [APBR 13]] 5 /\
  rules_in s' 5 = rules_in wState 5.
Proof.
  split.
  - eexists. split; [vm_compute; reflexivity|]. split; [intros r [<-|[]]; vm_compute; reflexivity|]. intros i j y t L Y T. destruct j as [|j]; [lia|]. destruct j; discriminate T.
  - eexists. split; [vm_compute; reflexivity|]. split; [|vm_compute; reflexivity]. cbn [left_alone_pbrs_run]. split; [left; intros m _ J; vm_compute in J; exact J|].
    destruct (step W0 wState (XPushPbr 20 [])) as [s1|] eqn:E; [|exact I]. split; [|now destruct (step W0 s1 _)].
    right; right; right. vm_compute in E. injection E as <-. do 5 eexists. split; [reflexivity|]. split; vm_compute; reflexivity.
Qed.
Definition wAfter : st := match step W0 wState (XSet 1 [APBR 13]) with Some s => s | None => s_start end.
Definition wIns : instr := match ins_at (s_heap wState) 9 with Some (_, a) => a | None => instr_new end.
Definition wArg : iarg := match set_value wState (APBR 13) with Some v => v | None => IOther end.
Example C135_witness : step W0 wState (XSet 1 [APBR 13]) = Some wAfter /\ set_value wState (APBR 13) = Some wArg /\ ins_at (s_heap wState) 9 = Some (false, wIns) /\
  i_pbrs wIns = [] /\ ins_at (s_heap wAfter) 9 = Some (false, assertInstruction W0 wIns wArg) /\ List.length (i_pbrs (assertInstruction W0 wIns wArg)) = 1%nat.
Proof. repeat apply conj; vm_compute; reflexivity. Qed.
(* the permission of a listed rule is changed, the rule stays valid *)
Definition wLater : st := match run W0 wState [XShift 11 11 false [MRights.AStr "read"]; XSetPbr 13 [PText "junk"]] with Some s => s | None => s_start end.
Example C136_witness : run W0 wState [XShift 11 11 false [MRights.AStr "read"]; XSetPbr 13 [PText "junk"]] = Some wLater /\
  option_map (@List.length pbrec) (rules_in wLater 5) = Some 1%nat /\ shown W0 wLater 13 <> shown W0 wState 13.
Proof. repeat apply conj; vm_compute; (reflexivity || discriminate). Qed.
Print Assumptions C132_frame.
Print Assumptions C132_program.
Print Assumptions C132_parse.
Print Assumptions C132_apart.
Print Assumptions C133_new.
Print Assumptions C133_partial.
Print Assumptions C133_refuted.
Print Assumptions C134_new.
Print Assumptions C134_partial.
Print Assumptions C134_refuted.
Print Assumptions C136_valid.
Print Assumptions C136_instruction.
Print Assumptions C135_set.
Print Assumptions C135_args.
Print Assumptions C135_zero.
Print Assumptions C135_push.
