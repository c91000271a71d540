(* Lemmas about MWhole.v. *)
From Coq Require Import String Ascii List PeanoNat NArith ZArith Bool Lia.
From Verif Require Import GoStr Shifty MMisc MKw MRights MLists MRule MConv MTree MHeap MAci MWhole SWhole PTree.
Import ListNotations.
Open Scope string_scope.

Lemma wr_len : forall {A} (h : list A) l c, List.length (wr h l c) = List.length h.
Proof. intros A h. induction h as [|x h IH]; intros [|l] c; cbn; [| | |rewrite IH]; reflexivity. Qed.
Lemma wr_same : forall {A} (h : list A) l c, (l < List.length h)%nat -> nth_error (wr h l c) l = Some c.
Proof. intros A h. induction h as [|x h IH]; intros [|l] c L; cbn in *; try lia; [reflexivity|]. apply IH. lia. Qed.
Lemma wr_other : forall {A} (h : list A) l m c, m <> l -> nth_error (wr h l c) m = nth_error h m.
Proof. intros A h. induction h as [|x h IH]; intros [|l] [|m] c N; cbn; try reflexivity; [easy|]. apply IH. congruence. Qed.
Lemma upd_same : forall {V} (e : nat -> V) x v, upd e x v x = v.
Proof. intros V e x v. unfold upd. now rewrite Nat.eqb_refl. Qed.
Lemma upd_other : forall {V} (e : nat -> V) x v y, y <> x -> upd e x v y = e y.
Proof. intros V e x v y N. unfold upd. apply Nat.eqb_neq in N. now rewrite N. Qed.

(* ---- decoding looks only at what a reference leads to ---- *)
Definition same_from (h h' : heap) (n : nat) : Prop := forall m, leads h n m -> nth_error h' m = nth_error h m.
Lemma same_here h h' n : same_from h h' n -> nth_error h' n = nth_error h n.
Proof. intros S. apply S. constructor. Qed.
Lemma same_kid h h' n d k : same_from h h' n -> nth_error h n = Some d -> In k (kids d) -> same_from h h' k.
Proof. intros S E I m L. apply S. eapply L_down; eauto. Qed.
Lemma leads_trans h a b c : leads h a b -> leads h b c -> leads h a c.
Proof. induction 1 as [|n d k m E I L IH]; intros H; [exact H|]. eapply L_down; eauto. Qed.
Lemma tree_frame h h' : forall f n, same_from h h' n -> tree_at f h' n = tree_at f h n.
Proof.
  induction f as [|f IH]; intros n S; [reflexivity|]. cbn [tree_at]. rewrite (same_here _ _ _ S).
  destruct (nth_error h n) as [d|] eqn:E; [|reflexivity]. destruct d as [| |w p fo b ks| | | | | |]; try reflexivity.
  rewrite (map_ext_in (tree_at f h') (tree_at f h)); [reflexivity|]. intros k K. apply IH. eapply same_kid; eauto.
Qed.
Lemma all_some {A} (l : list (option A)) r : all l = Some r <-> l = map Some r.
Proof.
  revert r. induction l as [|[a|] l IH]; intros r; cbn [all].
  - split; [intros [= <-]; reflexivity|]. now destruct r.
  - destruct (all l) as [q|] eqn:E.
    + split; [intros [= <-]; cbn; f_equal; now apply IH|]. destruct r as [|b r]; [discriminate|]. cbn. intros [= -> H]. apply IH in H. congruence.
    + split; [discriminate|]. destruct r as [|b r]; [discriminate|]. cbn. intros [= -> H]. apply IH in H. congruence.
  - split; [discriminate|]. now destruct r.
Qed.
Lemma all_map_in {A B} (f : A -> option B) l r : all (map f l) = Some r -> forall x, In x l -> exists y, f x = Some y /\ In y r.
Proof.
  revert r. induction l as [|a l IH]; intros r H x I; [destruct I|]. cbn in H. destruct (f a) as [b|] eqn:E; [|discriminate].
  destruct (all (map f l)) as [q|] eqn:Q; [|discriminate]. injection H as <-. destruct I as [<-|I]; [exists b; split; [exact E|now left]|].
  destruct (IH q eq_refl x I) as (y & Y & J). exists y. split; [exact Y|now right].
Qed.
Lemma all_map_ext {A B} (f g : A -> option B) l r : all (map f l) = Some r -> (forall x y, In x l -> In y r -> f x = Some y -> g x = Some y) -> all (map g l) = Some r.
Proof.
  revert r. induction l as [|a l IH]; intros r H K; [exact H|]. cbn in *. destruct (f a) as [b|] eqn:E; [|discriminate].
  destruct (all (map f l)) as [q|] eqn:Q; [|discriminate]. injection H as <-. rewrite (K a b); [|now left|now left|exact E].
  rewrite (IH q eq_refl); [reflexivity|]. intros x y I J. apply K; now right.
Qed.
(* ---- a stack without loops is no deeper than the heap is long ---- *)
Lemma tree_more h : forall f n t, tree_at f h n = Some t -> forall g, (f <= g)%nat -> tree_at g h n = Some t.
Proof.
  induction f as [|f IH]; intros n t H g L; [discriminate|]. destruct g as [|g]; [lia|]. cbn [tree_at] in *.
  destruct (nth_error h n) as [d|]; [|discriminate]. destruct d as [| |w p fo b ks| | | | | |]; try exact H.
  destruct (all (map (tree_at f h) ks)) as [ts|] eqn:A; [|discriminate]. rewrite (all_map_ext _ (tree_at g h) _ _ A); [exact H|].
  intros x y _ _ E. apply (IH _ _ E). lia.
Qed.
Fixpoint tsz (t : tree) : nat := match t with Leaf _ => 1 | Stk _ _ _ _ ts => S (fold_right (fun k n => (tsz k + n)%nat) 0%nat ts) end.
Lemma tsz_in t ts : In t ts -> (tsz t <= fold_right (fun k n => (tsz k + n)%nat) 0 ts)%nat.
Proof. induction ts as [|a ts IH]; intros H; [destruct H|]. cbn. destruct H as [->|H]; [lia|apply IH in H; lia]. Qed.
Lemma tree_deep_gen h : forall f n t seen, tree_at f h n = Some t -> NoDup seen -> (forall m, In m seen -> (m < List.length h)%nat) ->
  (forall m, In m seen -> exists g u, tree_at g h m = Some u /\ (tsz t < tsz u)%nat) -> tree_at (List.length h - List.length seen) h n = Some t.
Proof.
  induction f as [|f IH]; intros n t seen H N R D; [discriminate|].
  assert (NI : ~ In n seen).
  { intros I. destruct (D n I) as (g & u & G & L). pose proof (tree_more _ _ _ _ H (S f + g) ltac:(lia)) as A.
    pose proof (tree_more _ _ _ _ G (S f + g) ltac:(lia)) as B. rewrite A in B. injection B as <-. lia. }
  assert (LT : (n < List.length h)%nat).
  { cbn in H. apply nth_error_Some. destruct (nth_error h n); discriminate. }
  assert (N' : NoDup (n :: seen)) by (now constructor).
  assert (LE : (List.length (n :: seen) <= List.length (seq 0 (List.length h)))%nat).
  { apply NoDup_incl_length; [exact N'|]. intros m I. apply in_seq. destruct I as [<-|I]; [lia|]. apply R in I. lia. }
  rewrite seq_length in LE. cbn [List.length] in LE.
  destruct (List.length h - List.length seen)%nat as [|g] eqn:G; [lia|].
  pose proof H as H0. cbn [tree_at] in H |- *. destruct (nth_error h n) as [d|]; [|discriminate]. destruct d as [| |w p fo b ks| | | | | |]; try exact H.
  destruct (all (map (tree_at f h) ks)) as [ts|] eqn:A; [|discriminate]. injection H as <-.
  rewrite (all_map_ext _ (tree_at g h) _ _ A); [reflexivity|].
  intros k u Ik Iu E. specialize (IH k u (n :: seen) E N'). cbn [List.length] in IH. replace (List.length h - S (List.length seen))%nat with g in IH by lia.
  pose proof (tsz_in u ts Iu) as SZ.
  apply IH.
  - intros m [<-|I]; [exact LT|now apply R].
  - intros m [<-|I]; [exists (S f), (Stk w p fo b ts); split; [exact H0|cbn; lia]|]. destruct (D m I) as (q & v & Q & L). exists q, v. split; [exact Q|cbn in L; lia].
Qed.
Lemma tree_deep h f n t : tree_at f h n = Some t -> tree_at (List.length h) h n = Some t.
Proof.
  intros H. rewrite <- (Nat.sub_0_r (List.length h)). apply (tree_deep_gen h f n t [] H); [constructor| |]; intros m [].
Qed.
Lemma tree_len_frame h h' n : same_from h h' n -> (List.length h <= List.length h')%nat ->
  tree_at (List.length h') h' n = tree_at (List.length h) h n.
Proof.
  intros S L. rewrite (tree_frame h h') by exact S. destruct (tree_at (List.length h') h n) as [t|] eqn:E; [now rewrite (tree_deep _ _ _ _ E)|].
  destruct (tree_at (List.length h) h n) as [t|] eqn:F; [|reflexivity]. rewrite (tree_more _ _ _ _ F _ L) in E. discriminate.
Qed.
Section Frame.
Variables h h' : heap.
Hypothesis Len : (List.length h <= List.length h')%nat.
Lemma bctx_frame b : (forall n, b = BRef n -> same_from h h' n) -> bctx_at h' b = bctx_at h b.
Proof.
  intros S. destruct b as [| |n]; try reflexivity. specialize (S n eq_refl). cbn [bctx_at]. rewrite (same_here _ _ _ S), (tree_len_frame _ _ _ S Len). reflexivity.
Qed.
Lemma pbr_frame n : same_from h h' n -> pbr_at h' n = pbr_at h n.
Proof.
  intros S. unfold pbr_at. rewrite (same_here _ _ _ S). destruct (nth_error h n) as [d|] eqn:E; [|reflexivity]. destruct d as [| | |p b| | | | |]; try reflexivity.
  assert (P : perm_at h' p = perm_at h p).
  { unfold perm_at, rd. destruct p as [p|]; [|reflexivity]. rewrite (same_here h h' p); [reflexivity|]. eapply same_kid; [exact S|exact E|]. now left. }
  rewrite P. destruct b as [b|]; [|reflexivity]. rewrite bctx_frame; [reflexivity|]. intros m ->. eapply same_kid; [exact S|exact E|]. cbn. apply in_app_iff. right. now left.
Qed.
Lemma pbrs_frame n : same_from h h' n -> pbrs_at h' n = pbrs_at h n.
Proof.
  intros S. unfold pbrs_at. rewrite (same_here _ _ _ S). destruct (nth_error h n) as [d|] eqn:E; [|reflexivity]. destruct d as [| | | |ks| | | |]; try reflexivity.
  rewrite (map_ext_in (pbr_at h') (pbr_at h)); [reflexivity|]. intros k K. apply pbr_frame. eapply same_kid; eauto.
Qed.
Lemma tr_frame n : nth_error h' n = nth_error h n -> tr_at h' n = tr_at h n.
Proof. intros E. unfold tr_at. now rewrite E. Qed.
Lemma trs_frame n : same_from h h' n -> trs_at h' n = trs_at h n.
Proof.
  intros S. unfold trs_at. rewrite (same_here _ _ _ S). destruct (nth_error h n) as [d|] eqn:E; [|reflexivity]. destruct d as [| | | | | |b ks| |]; try reflexivity.
  rewrite (map_ext_in (tr_at h') (tr_at h)); [reflexivity|]. intros k K. apply tr_frame, same_here. eapply same_kid; eauto.
Qed.
Lemma ins_frame n : same_from h h' n -> ins_at h' n = ins_at h n.
Proof.
  intros S. unfold ins_at. rewrite (same_here _ _ _ S). destruct (nth_error h n) as [d|] eqn:E; [|reflexivity]. destruct d as [| | | | | | |a t p|]; try reflexivity.
  rewrite trs_frame by (eapply same_kid; [exact S|exact E|now left]). rewrite pbrs_frame by (eapply same_kid; [exact S|exact E|right; now left]). reflexivity.
Qed.
Lemma text_frame W n : same_from h h' n -> text_at W h' n = text_at W h n.
Proof.
  intros S. unfold text_at. rewrite (same_here _ _ _ S). destruct (nth_error h n) as [d|] eqn:E; [|reflexivity]. unfold itext.
  destruct d as [| |w p f d ks|p b|ks| |b ks|a t p|ks]; try reflexivity;
    [rewrite (tree_len_frame _ _ _ S Len)|rewrite pbr_frame by exact S|rewrite pbrs_frame by exact S|rewrite trs_frame by exact S|rewrite ins_frame by exact S|]; try reflexivity.
  rewrite (map_ext_in (fun n => option_map (instr_text W) (ins_at h' n)) (fun n => option_map (instr_text W) (ins_at h n))); [reflexivity|].
  intros k K. rewrite ins_frame; [reflexivity|]. eapply same_kid; eauto.
Qed.
End Frame.

(* ---- references stay inside the heap ---- *)
Definition closed (h : heap) : Prop := forall n d k, nth_error h n = Some d -> In k (kids d) -> (k < List.length h)%nat.
Definition wf (s : st) : Prop := closed (s_heap s) /\ forall x n, s_var s x = Some n -> (n < List.length (s_heap s))%nat.
Lemma wf_start : wf s_start.
Proof. split; [intros [|n]; discriminate|discriminate]. Qed.
Lemma leads_lt h n m : closed h -> leads h n m -> (n < List.length h)%nat -> (m < List.length h)%nat.
Proof. intros C. induction 1 as [|n d k m E I L IH]; intros LT; [exact LT|]. apply IH. eauto. Qed.
Lemma nth_lt {A} (h : list A) n d : nth_error h n = Some d -> (n < List.length h)%nat.
Proof. intros E. apply nth_error_Some. congruence. Qed.
Lemma closed_snoc h d : closed h -> (forall k, In k (kids d) -> (k < List.length h)%nat) -> closed (h ++ [d])%list.
Proof.
  intros C K n e k E I. rewrite app_length. cbn. destruct (Nat.lt_ge_cases n (List.length h)) as [L|L].
  - rewrite nth_error_app1 in E by exact L. specialize (C _ _ _ E I). lia.
  - rewrite nth_error_app2 in E by exact L. destruct (n - List.length h)%nat as [|j]; cbn in E; [injection E as <-; apply K in I; lia|now destruct j].
Qed.
Lemma closed_wr h n d : closed h -> (forall k, In k (kids d) -> (k < List.length h)%nat) -> closed (wr h n d).
Proof.
  intros C K m e k E I. rewrite wr_len. destruct (Nat.eq_dec m n) as [->|N].
  - rewrite wr_same in E by (apply nth_lt in E; now rewrite wr_len in E). injection E as <-. now apply K.
  - rewrite wr_other in E by exact N. eauto.
Qed.
(* h' has grown out of h by new objects *)
Definition grown (h h' : heap) : Prop := closed h' /\ exists e, h' = (h ++ e)%list.
Lemma grown_refl h : closed h -> grown h h.
Proof. intros C. split; [exact C|]. exists []. now rewrite app_nil_r. Qed.
Lemma grown_trans a b c : grown a b -> grown b c -> grown a c.
Proof. intros [_ (e & ->)] [C (f & ->)]. split; [exact C|]. exists (e ++ f)%list. now rewrite app_assoc. Qed.
Lemma grown_len h h' : grown h h' -> (List.length h <= List.length h')%nat.
Proof. intros [_ (e & ->)]. rewrite app_length. lia. Qed.
Lemma grown_old h h' n : grown h h' -> (n < List.length h)%nat -> nth_error h' n = nth_error h n.
Proof. intros [_ (e & ->)] L. now rewrite nth_error_app1. Qed.
Lemma grown_snoc h d : closed h -> (forall k, In k (kids d) -> (k < List.length h)%nat) -> grown h (h ++ [d])%list.
Proof. intros C K. split; [now apply closed_snoc|eauto]. Qed.
Lemma grown_closed h h' : grown h h' -> closed h'.
Proof. now intros []. Qed.
Lemma grown_same h h' n : closed h -> grown h h' -> (n < List.length h)%nat -> same_from h h' n.
Proof. intros C G L m R. apply grown_old; [exact G|]. now apply (leads_lt h n). Qed.
(* how alloc_tree goes through the members *)
Fixpoint alloc_trees (h : heap) (l : list tree) : heap * list nat :=
  match l with
  | [] => (h, [])
  | t :: r => let '(h1, k) := alloc_tree h t in let '(h2, ks) := alloc_trees h1 r in (h2, k :: ks)
  end.
Lemma alloc_stk h w p f d ts : alloc_tree h (Stk w p f d ts) =
  let '(h', ks) := alloc_trees h ts in ((h' ++ [NStk w p f d ks])%list, List.length h').
Proof.
  cbn [alloc_tree]. set (go := fix go (h : heap) (l : list tree) : heap * list nat :=
        match l with
        | [] => (h, [])
        | t :: r => let '(h1, k) := alloc_tree h t in let '(h2, ks) := go h1 r in (h2, k :: ks)
        end).
  assert (E : forall l h, go h l = alloc_trees h l) by (induction l as [|t l IH]; intros g; [reflexivity|]; cbn; destruct (alloc_tree g t); now rewrite IH).
  now rewrite E.
Qed.
Definition here (h : heap) (t : tree) (n : nat) : Prop := exists f, tree_at f h n = Some t.
Lemma here_grown h h' t n : closed h -> (n < List.length h)%nat -> grown h h' -> here h t n -> here h' t n.
Proof. intros C L G [f H]. exists f. rewrite (tree_frame h h'); [exact H|]. now apply grown_same. Qed.
Lemma here_stk h w p f d ks ts n : nth_error h n = Some (NStk w p f d ks) -> Forall2 (fun k t => here h t k) ks ts -> here h (Stk w p f d ts) n.
Proof.
  intros E F. assert (X : exists g, all (map (tree_at g h) ks) = Some ts).
  { clear E. induction F as [|k t ks ts [f0 H] F [g IH]]; [exists 0%nat; reflexivity|]. exists (f0 + g)%nat. cbn [map all].
    rewrite (tree_more _ _ _ _ H) by lia. rewrite (all_map_ext _ (tree_at (f0 + g) h) _ _ IH); [reflexivity|].
    intros x y _ _ E. apply (tree_more _ _ _ _ E). lia. }
  destruct X as [g X]. exists (S g). cbn [tree_at]. now rewrite E, X.
Qed.
Lemma nth_snoc {A} (h : list A) d : nth_error (h ++ [d])%list (List.length h) = Some d.
Proof. rewrite nth_error_app2 by lia. now rewrite Nat.sub_diag. Qed.
Lemma alloc_tree_ok : forall t h, closed h -> let '(h', n) := alloc_tree h t in
  grown h h' /\ (List.length h <= n < List.length h')%nat /\ here h' t n.
Proof.
  induction t as [c|w p f d ts IH] using tree_ind'; intros h C.
  - cbn [alloc_tree]. split; [apply grown_snoc; [exact C|intros k []]|]. rewrite app_length. cbn. split; [lia|]. exists 1%nat. cbn. now rewrite nth_snoc.
  - rewrite alloc_stk. assert (X : forall h, closed h -> let '(h', ks) := alloc_trees h ts in
      grown h h' /\ (forall k, In k ks -> (k < List.length h')%nat) /\ Forall2 (fun k t => here h' t k) ks ts).
    { clear h C. induction IH as [|t ts Ht IHt IH']; intros h C; [split; [now apply grown_refl|split; [intros k []|constructor]]|].
      cbn [alloc_trees]. specialize (Ht h C). destruct (alloc_tree h t) as [h1 k1]. destruct Ht as (G1 & L1 & H1).
      specialize (IH' h1 (grown_closed _ _ G1)). destruct (alloc_trees h1 ts) as [h2 ks]. destruct IH' as (G2 & L2 & F2).
      split; [eapply grown_trans; eauto|]. split.
      - intros k [<-|I]; [apply grown_len in G2; lia|now apply L2].
      - constructor; [|exact F2]. eapply here_grown; [exact (grown_closed _ _ G1)| |exact G2|exact H1]. lia. }
    specialize (X h C). destruct (alloc_trees h ts) as [h' ks]. destruct X as (G & L & F).
    pose proof (grown_closed _ _ G) as C'. assert (G' : grown h' (h' ++ [NStk w p f d ks])%list) by (apply grown_snoc; [exact C'|exact L]).
    split; [eapply grown_trans; eauto|]. pose proof (grown_len _ _ G). rewrite app_length. cbn. split; [lia|].
    apply (here_stk _ w p f d ks); [apply nth_snoc|]. revert G'. generalize (h' ++ [NStk w p f d ks])%list. intros h2 G'.
    clear - C' G' L F. induction F as [|k t ks ts Hk F IH]; constructor.
    + eapply here_grown; [exact C'| |exact G'|exact Hk]. apply L. now left.
    + apply IH. intros q I. apply L. now right.
Qed.
Definition ref_in (h : heap) (p : option nat) : Prop := forall n, p = Some n -> (n < List.length h)%nat.
Definition bref_in (h : heap) (b : option bref) : Prop := forall n, b = Some (BRef n) -> (n < List.length h)%nat.
Definition bctx_good (b : option bctx) : Prop := forall t, b = Some (BCStack (Some t)) -> is_stk t.
Definition holds (h : heap) (b : option bref) (c : option bctx) : Prop :=
  match b, c with
  | None, None => True
  | Some r, Some x => bctx_at h r = Some x
  | _, _ => False
  end.
Lemma bctx_here h n t : here h t n -> is_stk t -> bctx_at h (BRef n) = Some (BCStack (Some t)).
Proof.
  intros [f H] I. pose proof (tree_deep _ _ _ _ H) as D. cbn [bctx_at]. rewrite D. destruct f as [|f]; [discriminate|]. cbn in H.
  destruct (nth_error h n) as [d|]; [|discriminate]. destruct d; try reflexivity. injection H as <-. destruct I.
Qed.
Lemma alloc_bctx_ok b h : closed h -> let '(h', r) := alloc_bctx h b in
  grown h h' /\ bref_in h' (Some r) /\ (bctx_good (Some b) -> bctx_at h' r = Some b).
Proof.
  intros C. destruct b as [[c|]|[t|]]; cbn [alloc_bctx].
  - split; [apply grown_snoc; [exact C|intros k []]|]. split; [intros n [= <-]; rewrite app_length; cbn; lia|]. intros _. cbn. now rewrite nth_snoc.
  - split; [now apply grown_refl|]. split; [discriminate|reflexivity].
  - pose proof (alloc_tree_ok t h C) as A. destruct (alloc_tree h t) as [h' n]. destruct A as (G & L & H). split; [exact G|].
    split; [intros m [= <-]; lia|]. intros B. apply bctx_here; [exact H|]. now apply B.
  - split; [now apply grown_refl|]. split; [discriminate|reflexivity].
Qed.
Lemma alloc_perm_ok p h : closed h -> let '(h', r) := alloc_perm h p in grown h h' /\ ref_in h' r /\ perm_at h' r = p.
Proof.
  intros C. destruct p as [|d v]; cbn [alloc_perm].
  - split; [now apply grown_refl|]. split; [discriminate|reflexivity].
  - split; [apply grown_snoc; [exact C|intros k []]|]. split; [intros n [= <-]; rewrite app_length; cbn; lia|]. unfold perm_at, rd. now rewrite nth_snoc.
Qed.
Lemma perm_old h h' p : grown h h' -> ref_in h p -> perm_at h' p = perm_at h p.
Proof. intros G R. unfold perm_at, rd. destruct p as [p|]; [|reflexivity]. rewrite (grown_old h h'); [reflexivity|exact G|]. now apply R. Qed.
Lemma bctx_old h h' b : closed h -> grown h h' -> bref_in h (Some b) -> bctx_at h' b = bctx_at h b.
Proof. intros C G R. apply bctx_frame; [now apply grown_len|]. intros n ->. apply grown_same; [exact C|exact G|]. now apply R. Qed.
Lemma alloc_parts_ok x h : closed h -> let '(h', p, b) := alloc_parts h x in
  grown h h' /\ ref_in h' p /\ bref_in h' b /\ perm_at h' p = pb_p x /\ (bctx_good (pb_b x) -> holds h' b (pb_b x)).
Proof.
  intros C. unfold alloc_parts. pose proof (alloc_perm_ok (pb_p x) h C) as P. destruct (alloc_perm h (pb_p x)) as [h1 p]. destruct P as (G & R & E).
  destruct (pb_b x) as [b|]; [|split; [exact G|]; split; [exact R|]; split; [discriminate|]; split; [exact E|reflexivity]].
  pose proof (alloc_bctx_ok b h1 (grown_closed _ _ G)) as B. destruct (alloc_bctx h1 b) as [h2 r]. destruct B as (G2 & R2 & H2).
  split; [eapply grown_trans; eauto|]. split; [intros n N; apply R in N; apply grown_len in G2; lia|]. split; [exact R2|]. split; [|exact H2].
  now rewrite (perm_old h1 h2).
Qed.
Lemma kids_pbr h p b : ref_in h p -> bref_in h b -> forall k, In k (kids (NPbr p b)) -> (k < List.length h)%nat.
Proof.
  intros R B k I. cbn in I. apply in_app_iff in I as [I|I].
  - destruct p as [p|]; [|destruct I]. destruct I as [<-|[]]. now apply R.
  - destruct b as [[| |n]|]; try destruct I as []. subst. now apply B. destruct H.
Qed.
Lemma pbr_at_new h h' n p b x : closed h -> grown h h' -> ref_in h p -> bref_in h b -> nth_error h' n = Some (NPbr p b) ->
  perm_at h p = pb_p x -> holds h b (pb_b x) -> pbr_at h' n = Some x.
Proof.
  intros C G R B E P H. unfold pbr_at. rewrite E. rewrite (perm_old h h') by assumption. rewrite P. destruct x as [p0 b0]. cbn [pb_p pb_b] in *.
  destruct b as [b|], b0 as [b0|]; cbn in H; try contradiction; [|reflexivity]. rewrite (bctx_old h h') by assumption. now rewrite H.
Qed.
Lemma alloc_pbr_ok x h : closed h -> let '(h', n) := alloc_pbr h x in
  grown h h' /\ (n < List.length h')%nat /\ (bctx_good (pb_b x) -> pbr_at h' n = Some x).
Proof.
  intros C. unfold alloc_pbr. pose proof (alloc_parts_ok x h C) as A. destruct (alloc_parts h x) as [[h1 p] b]. destruct A as (G & R & B & P & H).
  pose proof (grown_closed _ _ G) as C1. assert (G' : grown h1 (h1 ++ [NPbr p b])%list) by (apply grown_snoc; [exact C1|now apply kids_pbr]).
  split; [eapply grown_trans; eauto|]. split; [rewrite app_length; cbn; lia|]. intros Q. apply (pbr_at_new h1 _ _ p b); auto using nth_snoc.
Qed.
Lemma pbr_old h h' n : closed h -> grown h h' -> (n < List.length h)%nat -> pbr_at h' n = pbr_at h n.
Proof. intros C G L. apply pbr_frame; [now apply grown_len|now apply grown_same]. Qed.
Definition pbr_good (r : pbr) : Prop := match r with Some x => bctx_good (pb_b x) | None => False end.
Lemma alloc_pbrs_ok l : forall h, closed h -> let '(h', ks) := alloc_pbrs h l in
  grown h h' /\ (forall k, In k ks -> (k < List.length h')%nat) /\ (Forall pbr_good l -> map (pbr_at h') ks = l).
Proof.
  induction l as [|[x|] l IH]; intros h C; cbn [alloc_pbrs].
  - split; [now apply grown_refl|]. split; [intros k []|reflexivity].
  - pose proof (alloc_pbr_ok x h C) as A. destruct (alloc_pbr h x) as [h1 k]. destruct A as (G & L & P). pose proof (grown_closed _ _ G) as C1.
    specialize (IH h1 C1). destruct (alloc_pbrs h1 l) as [h2 ks]. destruct IH as (G2 & L2 & M). split; [eapply grown_trans; eauto|].
    split; [intros q [<-|I]; [apply grown_len in G2; lia|now apply L2]|]. intros F. inversion F as [|? ? Q F']; subst. cbn [map]. rewrite M by exact F'.
    rewrite (pbr_old h1 h2) by assumption. now rewrite P.
  - specialize (IH h C). destruct (alloc_pbrs h l) as [h2 ks]. destruct IH as (G2 & L2 & M). split; [exact G2|]. split; [exact L2|].
    intros F. inversion F as [|? ? Q F']; subst. destruct Q.
Qed.
Lemma alloc_trs_ok l : forall h, closed h -> let '(h', ks) := alloc_trs h l in
  grown h h' /\ (forall k, In k ks -> (k < List.length h')%nat) /\ (Forall (fun r => r <> None) l -> map (tr_at h') ks = l).
Proof.
  induction l as [|[c|] l IH]; intros h C; cbn [alloc_trs].
  - split; [now apply grown_refl|]. split; [intros k []|reflexivity].
  - assert (G : grown h (h ++ [NTr c])%list) by (apply grown_snoc; [exact C|intros k []]). specialize (IH _ (grown_closed _ _ G)).
    destruct (alloc_trs (h ++ [NTr c])%list l) as [h2 ks]. destruct IH as (G2 & L2 & M). assert (LL : (List.length h < List.length (h ++ [NTr c])%list)%nat) by (rewrite app_length; cbn; lia).
    split; [eapply grown_trans; eauto|]. split; [intros q [<-|I]; [apply grown_len in G2; lia|now apply L2]|].
    intros F. inversion F; subst. cbn [map]. rewrite M by assumption. f_equal. unfold tr_at. rewrite (grown_old _ _ _ G2 LL). now rewrite nth_snoc.
  - specialize (IH h C). destruct (alloc_trs h l) as [h2 ks]. destruct IH as (G2 & L2 & M). split; [exact G2|]. split; [exact L2|].
    intros F. inversion F as [|? ? Q F']; subst. now destruct Q.
Qed.
Definition instr_good (a : instr) : Prop := Forall (fun r => r <> None) (i_trs a) /\ Forall pbr_good (i_pbrs a).
Lemma all_pbrs h ks l : map (pbr_at h) ks = l -> Forall pbr_good l ->
  match all (map (pbr_at h) ks) with Some l => Some (map Some l) | None => None end = Some l.
Proof.
  intros -> F. induction F as [|r l P F IH]; [reflexivity|]. destruct r as [x|]; [|destruct P]. cbn. destruct (all l); [|discriminate]. injection IH as IH. cbn. now rewrite IH.
Qed.
Lemma alloc_ins_ok a h : closed h -> let '(h', n) := alloc_ins h a in
  grown h h' /\ (n < List.length h')%nat /\ (instr_good a -> ins_at h' n = Some (false, a)).
Proof.
  intros C. unfold alloc_ins. pose proof (alloc_trs_ok (i_trs a) h C) as T. destruct (alloc_trs h (i_trs a)) as [h1 ts]. destruct T as (G1 & L1 & M1).
  pose proof (alloc_pbrs_ok (i_pbrs a) h1 (grown_closed _ _ G1)) as P. destruct (alloc_pbrs h1 (i_pbrs a)) as [h2 ps]. destruct P as (G2 & L2 & M2).
  pose proof (grown_closed _ _ G1) as C1. pose proof (grown_closed _ _ G2) as C2. set (k := List.length h2).
  set (A := (h2 ++ [NTrs false ts])%list). set (B := (A ++ [NPbrs ps])%list). set (D := (B ++ [NIns (i_label a) k (S k)])%list).
  assert (LA : List.length A = S k) by (unfold A; rewrite app_length; cbn; fold k; lia). assert (LB : List.length B = S (S k)) by (unfold B; rewrite app_length, LA; cbn; lia).
  assert (LD : List.length D = S (S (S k))) by (unfold D; rewrite app_length, LB; cbn; lia).
  assert (E : (h2 ++ [NTrs false ts; NPbrs ps; NIns (i_label a) k (S k)])%list = D) by (unfold D, B, A; now rewrite <- !app_assoc). rewrite E.
  assert (GA : grown h2 A) by (apply grown_snoc; [exact C2|]; intros q I; apply L1 in I; apply grown_len in G2; lia).
  assert (GB : grown A B) by (apply grown_snoc; [exact (grown_closed _ _ GA)|]; intros q I; apply L2 in I; apply grown_len in GA; lia).
  assert (GD : grown B D) by (apply grown_snoc; [exact (grown_closed _ _ GB)|]; intros q [<-|[<-|[]]]; lia).
  assert (G2D : grown h2 D) by (eapply grown_trans; [exact GA|eapply grown_trans; [exact GB|exact GD]]).
  split; [eapply grown_trans; [exact G1|]; eapply grown_trans; [exact G2|exact G2D]|]. split; [lia|].
  intros (GT & GP). unfold ins_at. assert (ND : nth_error D (S (S k)) = Some (NIns (i_label a) k (S k))) by (unfold D; rewrite <- LB; apply nth_snoc). rewrite ND.
  assert (NA : nth_error D k = Some (NTrs false ts)).
  { rewrite (grown_old B D) by (exact GD || lia). rewrite (grown_old A B) by (exact GB || lia). apply nth_snoc. }
  assert (NB : nth_error D (S k) = Some (NPbrs ps)).
  { rewrite (grown_old B D) by (exact GD || lia). unfold B. rewrite <- LA. apply nth_snoc. }
  unfold trs_at, pbrs_at. rewrite NA, NB.
  assert (TT : map (tr_at D) ts = i_trs a).
  { rewrite <- (M1 GT). apply map_ext_in. intros q I. apply tr_frame. apply grown_old; [eapply grown_trans; [exact G2|exact G2D]|now apply L1]. }
  assert (PP : map (pbr_at D) ps = map (pbr_at h2) ps).
  { apply map_ext_in. intros q I. apply pbr_old; [exact C2|exact G2D|now apply L2]. }
  rewrite TT, PP. cbv beta iota. pose proof (all_pbrs h2 ps (i_pbrs a) (M2 GP) GP) as X. destruct (all (map (pbr_at h2) ps)); [|discriminate]. injection X as ->. now destruct a.
Qed.

(* ---- what a statement leaves alone ---- *)
Definition keeps (s s' : st) (L X : list nat) : Prop :=
  wf s' /\ (List.length (s_heap s) <= List.length (s_heap s'))%nat /\
  (forall m, (m < List.length (s_heap s))%nat -> ~ In m L -> nth_error (s_heap s') m = nth_error (s_heap s) m) /\
  (forall x, ~ In x X -> s_var s' x = s_var s x).
Lemma keeps_refl s L X : wf s -> keeps s s L X.
Proof. intros W. repeat apply conj; auto; apply W. Qed.
Lemma keeps_trans a b c L X : keeps a b L X -> keeps b c L X -> keeps a c L X.
Proof.
  intros (_ & L1 & F1 & V1) (W & L2 & F2 & V2). split; [exact W|]. split; [lia|]. split.
  - intros m LT N. rewrite F2 by (lia || exact N). now apply F1.
  - intros x N. rewrite V2 by exact N. now apply V1.
Qed.
Lemma keeps_more s s' L X L' X' : keeps s s' L X -> incl L L' -> incl X X' -> keeps s s' L' X'.
Proof. intros (W & A & B & C) I J. repeat apply conj; auto; apply W. Qed.
Lemma keeps_var s x v L X : wf s -> ref_in (s_heap s) v -> In x X -> keeps s (with_var s x v) L X.
Proof.
  intros [C V] R I. repeat apply conj; cbn; auto.
  - intros y n. destruct (Nat.eq_dec y x) as [->|N]; [rewrite upd_same; apply R|rewrite upd_other by exact N; apply V].
  - intros y N. apply upd_other. intros ->. auto.
Qed.
Lemma keeps_heap s h' L X : wf s -> grown (s_heap s) h' -> keeps s (MkS h' (s_var s)) L X.
Proof.
  intros [C V] G. repeat apply conj; cbn; auto.
  - apply G.
  - intros x n E. apply V in E. apply grown_len in G. lia.
  - now apply grown_len.
  - intros m LT _. now apply grown_old.
Qed.
Lemma keeps_wr s n d L X : wf s -> (forall k, In k (kids d) -> (k < List.length (s_heap s))%nat) -> In n L -> keeps s (with_node s n d) L X.
Proof.
  intros [C V] K I. repeat apply conj; cbn; auto.
  - now apply closed_wr.
  - intros x m E. rewrite wr_len. eauto.
  - rewrite wr_len. lia.
  - intros m _ N. apply wr_other. intros ->. auto.
Qed.
Lemma keeps_fresh s x d L X : wf s -> (forall k, In k (kids d) -> (k < List.length (s_heap s))%nat) -> In x X -> keeps s (fresh s x d) L X.
Proof.
  intros Wf K I. assert (G : grown (s_heap s) (s_heap s ++ [d])%list) by (apply grown_snoc; [apply Wf|exact K]).
  pose proof (keeps_heap s _ L X Wf G) as A. apply (keeps_trans s _ _ L X A). apply (keeps_var (MkS (s_heap s ++ [d])%list (s_var s))); [apply A| |exact I].
  intros n [= <-]. cbn. rewrite app_length. cbn. lia.
Qed.
Lemma at_var_some s x n d : at_var s x = Some (n, d) -> s_var s x = Some n /\ nth_error (s_heap s) n = Some d.
Proof. unfold at_var. destruct (s_var s x) as [m|]; [|discriminate]. destruct (nth_error (s_heap s) m) eqn:E; [|discriminate]. intros [= -> ->]. auto. Qed.
Lemma at_var_kids s x n d : wf s -> at_var s x = Some (n, d) -> forall k, In k (kids d) -> (k < List.length (s_heap s))%nat.
Proof. intros [C V] A k I. apply at_var_some in A as [_ E]. eauto. Qed.
Lemma removelast_in {A} (l : list A) x : In x (removelast l) -> In x l.
Proof. induction l as [|a l IH]; [easy|]. cbn. destruct l; [easy|]. intros [->|H]; [now left|right; now apply IH]. Qed.
Lemma last_ref_in l n : last_ref l = Some n -> In n l.
Proof. apply nth_error_In. Qed.
Lemma wr_in {A} (l : list A) i a x : In x (wr l i a) -> x = a \/ In x l.
Proof. revert i. induction l as [|b l IH]; intros [|i] H; cbn in *; try easy; [destruct H; auto|]. destruct H as [->|H]; [auto|]. apply IH in H as [->|H]; auto. Qed.
Section Prog.
Variable W : world.
Lemma push_pbr_in h l m l' : push_pbr W h l m = Some l' -> forall k, In k l' -> In k l \/ m = Some k.
Proof.
  intros H k I. unfold push_pbr in H. destruct m as [m|]; [|injection H as <-; auto]. destruct (all (map (pbr_at h) l)); [|discriminate]. destruct (pbr_at h m); [|discriminate].
  injection H as <-. destruct (pbrs_policy W _ _); [|auto]. apply in_app_iff in I as [I|[->|[]]]; auto.
Qed.
Lemma push_each_in h ms : forall l l', push_each W h l ms = Some l' -> forall k, In k l' -> In k l \/ In k ms.
Proof.
  induction ms as [|m ms IH]; intros l l' H k I; cbn [push_each] in H; [injection H as <-; auto|]. destruct (push_pbr W h l (Some m)) as [l1|] eqn:E; [|discriminate].
  apply (IH _ _ H) in I as [I|I]; [|right; now right]. apply (push_pbr_in _ _ _ _ E) in I as [I|[= ->]]; [auto|right; now left].
Qed.
Lemma push_pbrs_ok v : forall xs h l h' l', closed h -> (forall x, ref_in h (v x)) -> (forall k, In k l -> (k < List.length h)%nat) ->
  push_pbrs W v h l xs = Some (h', l') -> grown h h' /\ forall k, In k l' -> (k < List.length h')%nat.
Proof.
  induction xs as [|x xs IH]; intros h l h' l' C V M H; cbn [push_pbrs] in H.
  - injection H as <- <-. split; [now apply grown_refl|exact M].
  - destruct x as [s|r|].
    + destruct (parsePBR W s) as [| |[x|]]; [discriminate|injection H as <- <-; split; [now apply grown_refl|exact M]| |eauto].
      pose proof (alloc_pbr_ok x h C) as A. destruct (alloc_pbr h x) as [h1 m]. destruct A as (G & L & _). destruct (push_pbr W h1 l (Some m)) as [l1|] eqn:E; [|discriminate].
      pose proof (grown_len _ _ G) as GL. destruct (IH h1 l1 h' l') as [G' M']; [exact (grown_closed _ _ G)|intros y n Y; apply V in Y; lia| |exact H|split; [eapply grown_trans; eauto|exact M']].
      intros k I. apply (push_pbr_in _ _ _ _ E) in I as [I|[= <-]]; [apply M in I; lia|exact L].
    + destruct (push_pbr W h l (v r)) as [l1|] eqn:E; [|discriminate]. apply (IH h l1); auto. intros k I. apply (push_pbr_in _ _ _ _ E) in I as [I|I]; [auto|]. now apply V in I.
    + eauto.
Qed.
Lemma pset_ok v : forall xs h p b h' p' b', closed h -> (forall x, ref_in h (v x)) -> ref_in h p -> bref_in h b ->
  pset W v h p b xs = Some (h', p', b') -> grown h h' /\ ref_in h' p' /\ bref_in h' b'.
Proof.
  induction xs as [|x xs IH]; intros h p b h' p' b' C V R B H; cbn [pset] in H.
  - injection H as <- <- <-. split; [now apply grown_refl|auto].
  - assert (Z : Some (h, p, b) = Some (h', p', b') -> grown h h' /\ ref_in h' p' /\ bref_in h' b') by (intros [= <- <- <-]; split; [now apply grown_refl|auto]).
    destruct x as [s|y|a|].
    + destruct (parsePBR W s) as [| |[x|]]; [discriminate|auto| |auto].
      pose proof (alloc_parts_ok x h C) as A. destruct (alloc_parts h x) as [[h1 p1] b1]. destruct A as (G & R1 & B1 & _). pose proof (grown_len _ _ G) as GL.
      destruct (IH h1 p1 b1 h' p' b') as (G' & R' & B'); [exact (grown_closed _ _ G)|intros y n Y; apply V in Y; lia|exact R1|exact B1|exact H|].
      split; [eapply grown_trans; eauto|auto].
    + destruct (perm_valid _); [|auto]. apply (IH h (v y) b); auto.
    + destruct (bval v a) as [r|] eqn:E; [|apply (IH h p b); auto]. destruct (bref_valid h r); [|auto]. apply (IH h p (Some r)); auto.
      intros n [= ->]. destruct a as [|y|y]; cbn in E; [discriminate| |]; destruct (v y) as [m|] eqn:Y; try discriminate; injection E as <-; now apply V in Y.
    + apply (IH h p b); auto.
Qed.
Lemma push_tr_in h l m k : In k (push_tr h l m) -> In k l \/ m = Some k.
Proof. unfold push_tr. destruct m as [m|]; [|auto]. destruct (_ && _)%bool; [|auto]. intros I. apply in_app_iff in I as [I|[->|[]]]; auto. Qed.
Lemma push_many_in h stop : forall xs l k, In k (push_many stop (push_tr h) l xs) -> In k l \/ In (Some k) xs.
Proof.
  induction xs as [|x xs IH]; intros l n H; [auto|]. cbn [push_many] in H. destruct (_ && _)%bool.
  - apply push_tr_in in H as [H|H]; [auto|right; left; auto].
  - apply IH in H as [H|H]; [|right; now right]. apply push_tr_in in H as [H|H]; [auto|right; left; auto].
Qed.
Lemma target_in h : forall xs l k, In k (fold_left (target1 h) xs l) -> In k l \/ In k xs.
Proof.
  induction xs as [|x xs IH]; intros l n H; [auto|]. cbn [fold_left] in H. apply IH in H as [H|H]; [|right; now right].
  unfold target1 in H. destruct (negb _); [|auto]. apply push_tr_in in H as [H|[= ->]]; [auto|right; now left].
Qed.
Lemma push_ins_in h l m l' : push_ins W h l m = Some l' -> forall k, In k l' -> In k l \/ m = Some k.
Proof.
  intros H k I. unfold push_ins in H. destruct m as [m|]; [|injection H as <-; auto]. destruct (all (map (itext W h) l)); [|discriminate]. destruct (itext W h m); [|discriminate].
  injection H as <-. destruct (existsb _ _); [auto|]. apply in_app_iff in I as [I|[->|[]]]; auto.
Qed.
Lemma push_inss_ok v : forall xs h l h' l', closed h -> (forall x, ref_in h (v x)) -> (forall k, In k l -> (k < List.length h)%nat) ->
  push_inss W v h l xs = Some (h', l') -> grown h h' /\ forall k, In k l' -> (k < List.length h')%nat.
Proof.
  induction xs as [|x xs IH]; intros h l h' l' C V M H; cbn [push_inss] in H.
  - injection H as <- <-. split; [now apply grown_refl|exact M].
  - destruct x as [s|r|].
    + destruct (parseInstruction W s) as [| |[x|]]; [discriminate|eauto| |eauto].
      pose proof (alloc_ins_ok x h C) as A. destruct (alloc_ins h x) as [h1 m]. destruct A as (G & L & _). destruct (push_ins W h1 l (Some m)) as [l1|] eqn:E; [|discriminate].
      pose proof (grown_len _ _ G) as GL. destruct (IH h1 l1 h' l') as [G' M']; [exact (grown_closed _ _ G)|intros y n Y; apply V in Y; lia| |exact H|split; [eapply grown_trans; eauto|exact M']].
      intros k I. apply (push_ins_in _ _ _ _ E) in I as [I|[= <-]]; [apply M in I; lia|exact L].
    + destruct (push_ins W h l (v r)) as [l1|] eqn:E; [|discriminate]. apply (IH h l1); auto. intros k I. apply (push_ins_in _ _ _ _ E) in I as [I|I]; [auto|]. now apply V in I.
    + eauto.
Qed.
Lemma of_kids s x (f : node -> list nat) : wf s -> (forall d, incl (f d) (kids d)) ->
  forall k, In k (match at_var s x with Some (_, d) => f d | None => [] end) -> (k < List.length (s_heap s))%nat.
Proof. intros Wf F k I. destruct (at_var s x) as [[n d]|] eqn:A; [|destruct I]. apply (at_var_kids s x n d Wf A). now apply F. Qed.
Lemma trs_of_in s x k : wf s -> In k (trs_of s x) -> (k < List.length (s_heap s))%nat.
Proof. intros Wf I. unfold trs_of in I. destruct (at_var s x) as [[n d]|] eqn:A; [|destruct I]. destruct d; try now destruct I. now apply (at_var_kids _ _ _ _ Wf A). Qed.
Lemma pbrs_of_in s x k : wf s -> In k (pbrs_of s x) -> (k < List.length (s_heap s))%nat.
Proof. intros Wf I. unfold pbrs_of in I. destruct (at_var s x) as [[n d]|] eqn:A; [|destruct I]. destruct d; try now destruct I. now apply (at_var_kids _ _ _ _ Wf A). Qed.
Lemma inss_of_in s x k : wf s -> In k (inss_of s x) -> (k < List.length (s_heap s))%nat.
Proof. intros Wf I. unfold inss_of in I. destruct (at_var s x) as [[n d]|] eqn:A; [|destruct I]. destruct d; try now destruct I. now apply (at_var_kids _ _ _ _ Wf A). Qed.
Lemma set1_keeps s n x s' a t p : wf s -> nth_error (s_heap s) n = Some (NIns a t p) -> set1 W s n x = Some s' ->
  keeps s s' [n; t; p] [] /\ s_var s' = s_var s /\ exists a', nth_error (s_heap s') n = Some (NIns a' t p).
Proof.
  intros Wf E H. unfold set1 in H. rewrite E in H. pose proof Wf as [C V]. pose proof (nth_lt _ _ _ E) as LN.
  assert (Z : Some s = Some s' -> keeps s s' [n; t; p] [] /\ s_var s' = s_var s /\ exists a', nth_error (s_heap s') n = Some (NIns a' t p)).
  { intros [= <-]. split; [now apply keeps_refl|]. eauto. }
  assert (Y : forall m d, (m = t \/ m = p) -> m <> n -> (forall k, In k (kids d) -> (k < List.length (s_heap s))%nat) ->
     Some (with_node s m d) = Some s' -> keeps s s' [n; t; p] [] /\ s_var s' = s_var s /\ exists a', nth_error (s_heap s') n = Some (NIns a' t p)).
  { intros m d M N K [= <-]. split; [apply keeps_wr; [exact Wf|exact K|]; cbn; intuition|]. split; [reflexivity|]. exists a. cbn. now rewrite wr_other by congruence. }
  destruct x as [y|u|x|r|l|]; auto.
  - injection H as <-. split; [apply keeps_wr; [exact Wf| |now left]; intros k [<-|[<-|[]]]; apply (C _ _ _ E); cbn; auto|]. split; [reflexivity|].
    cbn. rewrite wr_same by exact LN. eauto.
  - destruct (nth_error (s_heap s) t) as [[| | | | | |b ks| |]|] eqn:T; auto. apply Y in H; auto; [congruence|]. cbn [kids]. intros k I. apply target_in in I as [I|I]; [apply (C _ _ _ T I)|now apply (trs_of_in s u)].
  - destruct (nth_error (s_heap s) t) as [[| | | | | |b ks| |]|] eqn:T; auto. apply Y in H; auto; [congruence|]. cbn [kids]. intros k I. apply push_tr_in in I as [I|I]; [apply (C _ _ _ T I)|eauto].
  - destruct (nth_error (s_heap s) p) as [[| | | |ks| | | |]|] eqn:T; auto. destruct (push_pbr W (s_heap s) ks (s_var s r)) as [ks'|] eqn:Q; [|discriminate].
    apply Y in H; auto; [congruence|]. cbn [kids]. intros k I. apply (push_pbr_in _ _ _ _ Q) in I as [I|I]; [apply (C _ _ _ T I)|eauto].
  - destruct (nth_error (s_heap s) p) as [[| | | |ks| | | |]|] eqn:T; auto. destruct (push_each W (s_heap s) ks (pbrs_of s l)) as [ks'|] eqn:Q; [|discriminate].
    apply Y in H; auto; [congruence|]. cbn [kids]. intros k I. apply (push_each_in _ _ _ _ Q) in I as [I|I]; [apply (C _ _ _ T I)|now apply (pbrs_of_in s l)].
Qed.
Lemma sets_keeps : forall xs s n s' a t p, wf s -> nth_error (s_heap s) n = Some (NIns a t p) -> sets W s n xs = Some s' ->
  keeps s s' [n; t; p] [] /\ s_var s' = s_var s.
Proof.
  induction xs as [|x xs IH]; intros s n s' a t p Wf E H; cbn [sets] in H; [injection H as <-; split; [now apply keeps_refl|reflexivity]|].
  destruct (set1 W s n x) as [s1|] eqn:S1; [|discriminate]. destruct (set1_keeps _ _ _ _ _ _ _ Wf E S1) as (K & V & a' & E'). destruct (IH s1 n s' a' t p) as [K' V'];
    [apply K|exact E'|exact H|]. split; [eapply keeps_trans; eauto|congruence].
Qed.
Lemma new_ins_keeps s i L : wf s -> keeps s (new_ins s i) L [i].
Proof.
  intros Wf. pose proof Wf as [C V]. unfold new_ins. set (k := List.length (s_heap s)).
  assert (G : grown (s_heap s) (s_heap s ++ [NTrs false []; NPbrs []; NIns "" k (S k)])%list).
  { split; [|eauto]. change [NTrs false []; NPbrs []; NIns "" k (S k)] with ([NTrs false []] ++ [NPbrs []] ++ [NIns "" k (S k)])%list. rewrite !app_assoc.
    apply closed_snoc; [apply closed_snoc; [apply closed_snoc; [exact C|intros q []]|intros q []]|]. rewrite !app_length. cbn. fold k. intros q [<-|[<-|[]]]; lia. }
  apply (keeps_trans s (MkS (s_heap s ++ [NTrs false []; NPbrs []; NIns "" k (S k)])%list (s_var s))); [now apply keeps_heap|].
  apply (keeps_var (MkS (s_heap s ++ [NTrs false []; NPbrs []; NIns "" k (S k)])%list (s_var s))); [now apply (keeps_heap s _ [] [])| |now left].
  intros n [= <-]. cbn [s_heap]. rewrite app_length. cbn. fold k. lia.
Qed.
Lemma nth_app3 {A} (h : list A) a b c : nth_error (h ++ [a; b; c])%list (S (S (List.length h))) = Some c.
Proof. rewrite nth_error_app2 by lia. now replace (S (S (List.length h)) - List.length h)%nat with 2%nat by lia. Qed.
Lemma touched_one s c x n d : receiver c = Some x -> at_var s x = Some (n, d) -> In n (touched s c).
Proof. intros R A. apply at_var_some in A as [A B]. unfold touched. rewrite R, A, B. destruct d; now left. Qed.
Lemma step_keeps s c s' : wf s -> step W s c = Some s' -> keeps s s' (touched s c) (assigned c).
Proof.
  intros Wf H. pose proof Wf as [C V].
  assert (OS : forall x f, receiver c = Some x -> (forall w p b d ks k, In k (kids (f w p b d ks)) -> In k ks \/ (k < List.length (s_heap s))%nat) ->
    keeps s (on_stack s x f) (touched s c) (assigned c)).
  { intros x f R K. unfold on_stack. destruct (at_var s x) as [[n d]|] eqn:A; [|now apply keeps_refl]. destruct d as [| |w p b d ks| | | | | |]; try now apply keeps_refl.
    apply keeps_wr; [exact Wf| |eapply touched_one; eauto]. intros k I. apply K in I as [I|I]; [|exact I]. now apply (at_var_kids _ _ _ _ Wf A). }
  assert (OT : forall x f, receiver c = Some x -> (forall b ks k, In k (kids (f b ks)) -> In k ks \/ (k < List.length (s_heap s))%nat) ->
    keeps s (on_trs s x f) (touched s c) (assigned c)).
  { intros x f R K. unfold on_trs. destruct (at_var s x) as [[n d]|] eqn:A; [|now apply keeps_refl]. destruct d as [| | | | | |b ks| |]; try now apply keeps_refl.
    apply keeps_wr; [exact Wf| |eapply touched_one; eauto]. intros k I. apply K in I as [I|I]; [|exact I]. now apply (at_var_kids _ _ _ _ Wf A). }
  assert (NV : forall z, In z (assigned c) -> keeps s (with_var s z None) (touched s c) (assigned c)).
  { intros z I. apply keeps_var; [exact Wf|discriminate|exact I]. }
  (* write to the receiver, then assign *)
  assert (WV : forall z x n d e v, receiver c = Some x -> at_var s x = Some (n, d) -> (forall k, In k (kids e) -> (k < List.length (s_heap s))%nat) ->
    ref_in (s_heap s) v -> In z (assigned c) -> keeps s (with_var (with_node s n e) z v) (touched s c) (assigned c)).
  { intros z x n d e v R A K RV I. assert (K1 : keeps s (with_node s n e) (touched s c) (assigned c)) by (apply keeps_wr; [exact Wf|exact K|eapply touched_one; eauto]).
    eapply keeps_trans; [exact K1|]. apply keeps_var; [apply K1| |exact I]. intros m E. cbn. rewrite wr_len. auto. }
  assert (PO : forall z x n d ks e, receiver c = Some x -> at_var s x = Some (n, d) -> kids d = ks -> kids e = removelast ks -> In z (assigned c) ->
    keeps s (with_var (with_node s n e) z (last_ref ks)) (touched s c) (assigned c)).
  { intros z x n d ks e R A K1 K2 I. apply (WV z x n d); auto.
    - rewrite K2. intros k J. apply (at_var_kids _ _ _ _ Wf A). rewrite K1. now apply removelast_in.
    - intros m J. apply (at_var_kids _ _ _ _ Wf A). rewrite K1. now apply last_ref_in. }
  assert (VI : forall x n d, at_var s x = Some (n, d) -> (n < List.length (s_heap s))%nat) by (intros x n d A; apply at_var_some in A as [A _]; eauto).
  destruct c as [x|x y|x al xs|z x on xs|x c|z x k|x w pad|x y|z x|z x i|x y i|x b|x b|x b|r p b|r xs|l|l xs|r l|r l i|x c|z x m|t|t xs|x t|x t i|t b|i xs|i raw|t i|l i|l|l xs|i l|i l k];
    cbn [step] in H; try injection H as <-.
  - apply NV. now left.
  - apply keeps_var; [exact Wf|intros n E; eauto|now left].
  - apply keeps_fresh; [exact Wf|intros k []|now left].
  - destruct (at_var s x) as [[n d]|] eqn:A; [|injection H as <-; apply NV; now left]. destruct d as [d v| | | | | | | |]; try (injection H as <-; apply NV; now left).
    injection H as <-. apply (WV z x n (NPerm d v)); auto; [intros k []|intros m [= <-]; eauto|now left].
  - apply keeps_fresh; [exact Wf|intros k []|now left].
  - unfold bind_call. assert (Z : In z (assigned (XCall z x k))) by (destruct k; now left). assert (N : forall k', k' = k -> keeps s (match br_step None k' with
      | None => with_var s z None
      | Some c => fresh (match k' with BInit => with_var s x (Some (List.length (s_heap s))) | _ => s end) z (NBind c) end) (touched s (XCall z x k)) (assigned (XCall z x k))).
    { intros k' ->. destruct (br_step None k) as [c|]; [|now apply NV].
      destruct k; try (apply keeps_fresh; [exact Wf|intros q []|exact Z]).
      assert (G : grown (s_heap s) (s_heap s ++ [NBind c])%list) by (apply grown_snoc; [exact C|intros q []]).
      assert (K1 : keeps s (MkS (s_heap s ++ [NBind c])%list (s_var s)) (touched s (XCall z x BInit)) (assigned (XCall z x BInit))) by (now apply keeps_heap).
      eapply keeps_trans; [exact K1|]. assert (LG : (List.length (s_heap s) < List.length (s_heap s ++ [NBind c])%list)%nat) by (rewrite app_length; cbn; lia).
      assert (K2 : keeps (MkS (s_heap s ++ [NBind c])%list (s_var s)) (with_var (MkS (s_heap s ++ [NBind c])%list (s_var s)) x (Some (List.length (s_heap s)))) (touched s (XCall z x BInit)) (assigned (XCall z x BInit))).
      { apply keeps_var; [apply K1|intros n [= <-]; exact LG|right; now left]. }
      eapply keeps_trans; [exact K2|]. apply (keeps_var (with_var (MkS (s_heap s ++ [NBind c])%list (s_var s)) x (Some (List.length (s_heap s))))); [apply K2|intros n [= <-]; exact LG|now left]. }
    destruct (at_var s x) as [[n d]|] eqn:A; [|now apply N]. destruct d as [|c| | | | | | |]; try now apply N.
    destruct (br_step (Some c) k) as [c'|]; [apply (WV z x n (NBind c)); auto; [intros q []|intros m [= <-]; eauto]|]. apply keeps_var; [exact Wf|intros m [= <-]; eauto|exact Z].
  - apply keeps_fresh; [exact Wf|intros k []|now left].
  - unfold accepted. destruct (at_var s y) as [[m e]|] eqn:A; [|now apply keeps_refl]. destruct (acceptable e); [|now apply keeps_refl]. apply OS; [reflexivity|].
    intros w p f d ks k I. cbn in I. apply in_app_iff in I as [I|[<-|[]]]; [auto|right; eauto].
  - destruct (at_var s x) as [[n d]|] eqn:A; [|apply NV; now left]. destruct d as [| |w p f d ks| | | | | |]; try (apply NV; now left). eapply PO; try reflexivity; [exact A|reflexivity|now left].
  - apply keeps_var; [exact Wf| |now left]. destruct (at_var s x) as [[n d]|] eqn:A; [|discriminate]. destruct d as [|c|w p f d ks| | | | | |]; try discriminate; intros m E.
    + injection E as <-. eauto.
    + apply (at_var_kids _ _ _ _ Wf A). now apply nth_error_In in E.
  - unfold accepted. destruct (at_var s y) as [[m e]|] eqn:A; [|now apply keeps_refl]. destruct (acceptable e); [|now apply keeps_refl]. apply OS; [reflexivity|].
    intros w p f d ks k I. cbn in I. apply wr_in in I as [->|I]; [right; eauto|auto].
  - apply OS; [reflexivity|]. cbn. auto.
  - apply OS; [reflexivity|]. cbn. auto.
  - apply OS; [reflexivity|]. cbn. auto.
  - destruct (bval (s_var s) b) as [q|] eqn:B; [|apply NV; now left]. destruct (perm_valid _); [|apply NV; now left]. apply keeps_fresh; [exact Wf| |now left].
    apply kids_pbr; [intros n E; eauto|]. intros n [= ->]. destruct b as [|y|y]; cbn in B; [discriminate| |]; destruct (s_var s y) as [m|] eqn:Y; try discriminate; injection B as <-; eauto.
  - unfold set_pbr in H.
    assert (N : match pset W (s_var s) (s_heap s) None None xs with
      | Some (h, p, b) => Some (MkS (h ++ [NPbr p b])%list (upd (s_var s) r (Some (List.length h))))
      | None => None end = Some s' -> keeps s s' (touched s (XSetPbr r xs)) (assigned (XSetPbr r xs))).
    { intros E. destruct (pset W (s_var s) (s_heap s) None None xs) as [[[h p] b]|] eqn:P; [|discriminate]. injection E as <-.
      assert (A0 : grown (s_heap s) h /\ ref_in h p /\ bref_in h b) by (eapply pset_ok; [exact C|exact V| | |exact P]; intros q Q; discriminate Q). destruct A0 as (G & R & B). pose proof (grown_closed _ _ G) as C1.
      assert (G' : grown h (h ++ [NPbr p b])%list) by (apply grown_snoc; [exact C1|now apply kids_pbr]). pose proof (grown_trans _ _ _ G G') as G2.
      assert (K1 : keeps s (MkS (h ++ [NPbr p b])%list (s_var s)) (touched s (XSetPbr r xs)) (assigned (XSetPbr r xs))) by (now apply keeps_heap).
      eapply keeps_trans; [exact K1|]. apply (keeps_var (MkS (h ++ [NPbr p b])%list (s_var s))); [apply K1| |now left]. intros n [= <-]. cbn. rewrite app_length. cbn. lia. }
    destruct (at_var s r) as [[n d]|] eqn:A; [|now apply N]. destruct d as [| | |p b| | | | |]; try now apply N. destruct (zero_parts _ _ _); [now apply N|]. clear N.
    destruct (pset W (s_var s) (s_heap s) p b xs) as [[[h p'] b']|] eqn:P; [|discriminate]. injection H as <-.
    assert (Kid : forall k, In k (kids (NPbr p b)) -> (k < List.length (s_heap s))%nat) by (now apply (at_var_kids _ _ _ _ Wf A)).
    assert (A0 : grown (s_heap s) h /\ ref_in h p' /\ bref_in h b').
    { eapply pset_ok; [exact C|exact V| | |exact P]; [intros q ->; apply Kid; now left|intros q ->; apply Kid; cbn; apply in_app_iff; right; now left]. }
    destruct A0 as (G & R & B).
    assert (K1 : keeps s (MkS h (s_var s)) (touched s (XSetPbr r xs)) (assigned (XSetPbr r xs))) by (now apply keeps_heap).
    eapply keeps_trans; [exact K1|]. apply (keeps_wr (MkS h (s_var s))); [apply K1|now apply kids_pbr|eapply touched_one; [reflexivity|exact A]].
  - apply keeps_fresh; [exact Wf|intros k []|now left].
  - destruct (at_var s l) as [[n d]|] eqn:A; [|injection H as <-; now apply keeps_refl]. destruct d as [| | | |ks| | | |]; try (injection H as <-; now apply keeps_refl).
    destruct (push_pbrs W (s_var s) (s_heap s) ks xs) as [[h ks']|] eqn:P; [|discriminate]. injection H as <-.
    destruct (push_pbrs_ok _ _ _ _ _ _ C V (at_var_kids _ _ _ _ Wf A) P) as [G M].
    assert (K1 : keeps s (MkS h (s_var s)) (touched s (XPushPbr l xs)) (assigned (XPushPbr l xs))) by (now apply keeps_heap).
    eapply keeps_trans; [exact K1|]. apply (keeps_wr (MkS h (s_var s))); [apply K1|exact M|eapply touched_one; [reflexivity|exact A]].
  - destruct (at_var s l) as [[n d]|] eqn:A; [|apply NV; now left]. destruct d as [| | | |ks| | | |]; try (apply NV; now left). eapply PO; try reflexivity; [exact A|reflexivity|now left].
  - apply keeps_var; [exact Wf| |now left]. intros n E. apply nth_error_In in E. now apply (pbrs_of_in s l).
  - apply keeps_fresh; [exact Wf|intros k []|now left].
  - unfold target_call. assert (Z : In z (assigned (XTCall z x m))) by (destruct m; now left). assert (N : forall k', k' = m -> keeps s (match tr_step None k' with
      | None => with_var s z None
      | Some c => fresh (match k' with TInit => with_var s x (Some (List.length (s_heap s))) | _ => s end) z (NTr c) end) (touched s (XTCall z x m)) (assigned (XTCall z x m))).
    { intros k' ->. destruct (tr_step None m) as [c|]; [|now apply NV].
      destruct m; try (apply keeps_fresh; [exact Wf|intros q []|exact Z]).
      assert (G : grown (s_heap s) (s_heap s ++ [NTr c])%list) by (apply grown_snoc; [exact C|intros q []]).
      assert (K1 : keeps s (MkS (s_heap s ++ [NTr c])%list (s_var s)) (touched s (XTCall z x TInit)) (assigned (XTCall z x TInit))) by (now apply keeps_heap).
      eapply keeps_trans; [exact K1|]. assert (LG : (List.length (s_heap s) < List.length (s_heap s ++ [NTr c])%list)%nat) by (rewrite app_length; cbn; lia).
      assert (K2 : keeps (MkS (s_heap s ++ [NTr c])%list (s_var s)) (with_var (MkS (s_heap s ++ [NTr c])%list (s_var s)) x (Some (List.length (s_heap s)))) (touched s (XTCall z x TInit)) (assigned (XTCall z x TInit))).
      { apply keeps_var; [apply K1|intros n [= <-]; exact LG|right; now left]. }
      eapply keeps_trans; [exact K2|]. apply (keeps_var (with_var (MkS (s_heap s ++ [NTr c])%list (s_var s)) x (Some (List.length (s_heap s))))); [apply K2|intros n [= <-]; exact LG|now left]. }
    destruct (at_var s x) as [[n d]|] eqn:A; [|now apply N]. destruct d as [| | | | |c| | |]; try now apply N.
    destruct (tr_step (Some c) m) as [c'|]; [apply (WV z x n (NTr c)); auto; [intros q []|intros q [= <-]; eauto]|]. apply keeps_var; [exact Wf|intros q [= <-]; eauto|exact Z].
  - apply keeps_fresh; [exact Wf|intros k []|now left].
  - apply OT; [reflexivity|]. intros b ks k I. cbn in I. apply push_many_in in I as [I|I]; [auto|right]. apply in_map_iff in I as (a & E & _). destruct a as [x|]; [|discriminate]. cbn in E. eauto.
  - destruct (at_var s t) as [[n d]|] eqn:A; [|apply NV; now left]. destruct d as [| | | | | |b ks| |]; try (apply NV; now left). eapply PO; try reflexivity; [exact A|reflexivity|now left].
  - apply keeps_var; [exact Wf| |now left]. intros n E. apply nth_error_In in E. now apply (trs_of_in s t).
  - apply OT; [reflexivity|]. cbn. auto.
  - assert (N : sets W (new_ins s i) (S (S (List.length (s_heap s)))) xs = Some s' -> keeps s s' (touched s (XSet i xs)) (assigned (XSet i xs))).
    { intros E. pose proof (new_ins_keeps s i (touched s (XSet i xs)) Wf) as K1. assert (W1' : wf (new_ins s i)) by (apply K1).
      destruct (sets_keeps xs (new_ins s i) (S (S (List.length (s_heap s)))) s' "" (List.length (s_heap s)) (S (List.length (s_heap s))) W1' (nth_app3 _ _ _ _) E) as [(W2 & L2 & F2 & V2) _].
      destruct K1 as (W1 & L1 & F1 & V1). split; [exact W2|]. split; [lia|]. split.
      - intros m LT NI. rewrite F2; [now apply F1|lia|]. intros [X|[X|[X|[]]]]; lia.
      - intros x NI. rewrite V2 by (intros []). now apply V1. }
    destruct (at_var s i) as [[n d]|] eqn:A; [|now apply N]. destruct d as [| | | | | | |a t p|]; try now apply N. clear N.
    apply at_var_some in A as [A B]. destruct (sets_keeps xs s n s' a t p Wf B H) as [K _]. eapply keeps_more; [exact K| |intros q []].
    unfold touched. cbn [receiver]. rewrite A, B. apply incl_refl.
  - destruct (parseInstruction W raw) as [| |[a|]]; [discriminate|injection H as <-; now apply keeps_refl| |injection H as <-; now apply keeps_refl].
    pose proof (alloc_ins_ok a (s_heap s) C) as A. destruct (alloc_ins (s_heap s) a) as [h n]. destruct A as (G & L & _). injection H as <-.
    assert (K1 : keeps s (MkS h (s_var s)) (touched s (XParse i raw)) (assigned (XParse i raw))) by (now apply keeps_heap).
    eapply keeps_trans; [exact K1|]. apply (keeps_var (MkS h (s_var s))); [apply K1| |now left]. intros m [= <-]. exact L.
  - apply keeps_var; [exact Wf| |now left]. destruct (at_var s i) as [[n d]|] eqn:A; [|discriminate]. destruct d as [| | | | | | |a u p|]; try discriminate. intros m [= <-].
    apply (at_var_kids _ _ _ _ Wf A). now left.
  - apply keeps_var; [exact Wf| |now left]. destruct (at_var s i) as [[n d]|] eqn:A; [|discriminate]. destruct d as [| | | | | | |a u p|]; try discriminate. intros m [= <-].
    apply (at_var_kids _ _ _ _ Wf A). right. now left.
  - apply keeps_fresh; [exact Wf|intros k []|now left].
  - destruct (at_var s l) as [[n d]|] eqn:A; [|injection H as <-; now apply keeps_refl]. destruct d as [| | | | | | | |ks]; try (injection H as <-; now apply keeps_refl).
    destruct (push_inss W (s_var s) (s_heap s) ks xs) as [[h ks']|] eqn:P; [|discriminate]. injection H as <-.
    destruct (push_inss_ok _ _ _ _ _ _ C V (at_var_kids _ _ _ _ Wf A) P) as [G M].
    assert (K1 : keeps s (MkS h (s_var s)) (touched s (XPushIns l xs)) (assigned (XPushIns l xs))) by (now apply keeps_heap).
    eapply keeps_trans; [exact K1|]. apply (keeps_wr (MkS h (s_var s))); [apply K1|exact M|eapply touched_one; [reflexivity|exact A]].
  - destruct (at_var s l) as [[n d]|] eqn:A; [|apply NV; now left]. destruct d as [| | | | | | | |ks]; try (apply NV; now left). eapply PO; try reflexivity; [exact A|reflexivity|now left].
  - apply keeps_var; [exact Wf| |now left]. intros n E. apply nth_error_In in E. now apply (inss_of_in s l).
Qed.
Lemma run_wf p : forall s s', wf s -> run W s p = Some s' -> wf s'.
Proof.
  induction p as [|c p IH]; intros s s' Wf H; cbn [run] in H; [now injection H as <-|]. destruct (step W s c) as [s1|] eqn:E; [|discriminate].
  apply (IH s1); [|exact H]. apply (step_keeps s c s1 Wf E).
Qed.
End Prog.

(* ---- what is put on the heap leads to new objects only ---- *)
Definition above (b : nat) (h : heap) : Prop := forall n d k, (b <= n)%nat -> nth_error h n = Some d -> In k (kids d) -> (b <= k)%nat.
Lemma leads_above b h n m : above b h -> leads h n m -> (b <= n)%nat -> (b <= m)%nat.
Proof. intros A. induction 1 as [|n d k m E I L IH]; intros LE; [exact LE|]. apply IH. eauto. Qed.
Lemma above_snoc b h d : above b h -> (forall k, In k (kids d) -> (b <= k)%nat) -> above b (h ++ [d])%list.
Proof.
  intros A K n e k LE E I. destruct (Nat.lt_ge_cases n (List.length h)) as [L|L].
  - rewrite nth_error_app1 in E by exact L. eauto.
  - rewrite nth_error_app2 in E by exact L. destruct (n - List.length h)%nat as [|j]; cbn in E; [injection E as <-; auto|now destruct j].
Qed.
Lemma alloc_tree_above b : forall t h, above b h -> (b <= List.length h)%nat -> let '(h', n) := alloc_tree h t in
  above b h' /\ (b <= List.length h')%nat /\ (b <= n)%nat.
Proof.
  induction t as [c|w p f d ts IH] using tree_ind'; intros h A L.
  - cbn [alloc_tree]. split; [apply above_snoc; [exact A|intros k []]|]. rewrite app_length. lia.
  - rewrite alloc_stk. assert (X : forall h, above b h -> (b <= List.length h)%nat -> let '(h', ks) := alloc_trees h ts in
      above b h' /\ (b <= List.length h')%nat /\ (forall k, In k ks -> (b <= k)%nat)).
    { clear h A L. induction IH as [|t ts Ht IHt IH']; intros h A L; [split; [exact A|split; [exact L|intros k []]]|].
      cbn [alloc_trees]. specialize (Ht h A L). destruct (alloc_tree h t) as [h1 k1]. destruct Ht as (A1 & L1 & K1).
      specialize (IH' h1 A1 L1). destruct (alloc_trees h1 ts) as [h2 ks]. destruct IH' as (A2 & L2 & K2). split; [exact A2|]. split; [exact L2|].
      intros k [<-|I]; auto. }
    specialize (X h A L). destruct (alloc_trees h ts) as [h' ks]. destruct X as (A1 & L1 & K1). split; [now apply above_snoc|]. rewrite app_length. lia.
Qed.
Lemma alloc_pbr_above b x h : above b h -> (b <= List.length h)%nat -> let '(h', n) := alloc_pbr h x in
  above b h' /\ (b <= List.length h')%nat /\ (b <= n)%nat.
Proof.
  intros A L. unfold alloc_pbr, alloc_parts.
  assert (P : let '(h1, p) := alloc_perm h (pb_p x) in above b h1 /\ (b <= List.length h1)%nat /\ forall n, p = Some n -> (b <= n)%nat).
  { destruct (pb_p x) as [|d v]; cbn [alloc_perm]; [split; [exact A|split; [exact L|discriminate]]|].
    split; [apply above_snoc; [exact A|intros k []]|]. rewrite app_length. split; [lia|]. intros n [= <-]. exact L. }
  destruct (alloc_perm h (pb_p x)) as [h1 p]. destruct P as (A1 & L1 & P1).
  assert (Q : let '(h2, p, r) := match pb_b x with None => (h1, p, None) | Some c => let '(h2, r) := alloc_bctx h1 c in (h2, p, Some r) end in
    above b h2 /\ (b <= List.length h2)%nat /\ (forall n, p = Some n -> (b <= n)%nat) /\ forall n, r = Some (BRef n) -> (b <= n)%nat).
  { destruct (pb_b x) as [[[c|]|[t|]]|]; cbn [alloc_bctx].
    - split; [apply above_snoc; [exact A1|intros k []]|]. rewrite app_length. split; [lia|]. split; [exact P1|]. intros n [= <-]. exact L1.
    - split; [exact A1|]. split; [exact L1|]. split; [exact P1|discriminate].
    - pose proof (alloc_tree_above b t h1 A1 L1) as T. destruct (alloc_tree h1 t) as [h2 n]. destruct T as (A2 & L2 & K2).
      split; [exact A2|]. split; [exact L2|]. split; [exact P1|]. intros m [= <-]. exact K2.
    - split; [exact A1|]. split; [exact L1|]. split; [exact P1|discriminate].
    - split; [exact A1|]. split; [exact L1|]. split; [exact P1|discriminate]. }
  destruct (match pb_b x with None => (h1, p, None) | Some c => let '(h2, r) := alloc_bctx h1 c in (h2, p, Some r) end) as [[h2 p2] r].
  destruct Q as (A2 & L2 & P2 & R2). split; [apply above_snoc; [exact A2|]|rewrite app_length; lia].
  intros k I. cbn in I. apply in_app_iff in I as [I|I].
  - destruct p2 as [q|]; [|destruct I]. destruct I as [<-|[]]. now apply P2.
  - destruct r as [[| |q]|]; try now destruct I. destruct I as [<-|[]]. now apply R2.
Qed.
Lemma alloc_pbrs_above b l : forall h, above b h -> (b <= List.length h)%nat -> let '(h', ks) := alloc_pbrs h l in
  above b h' /\ (b <= List.length h')%nat /\ (forall k, In k ks -> (b <= k)%nat).
Proof.
  induction l as [|[x|] l IH]; intros h A L; cbn [alloc_pbrs].
  - split; [exact A|]. split; [exact L|intros k []].
  - pose proof (alloc_pbr_above b x h A L) as P. destruct (alloc_pbr h x) as [h1 k]. destruct P as (A1 & L1 & K1). specialize (IH h1 A1 L1).
    destruct (alloc_pbrs h1 l) as [h2 ks]. destruct IH as (A2 & L2 & K2). split; [exact A2|]. split; [exact L2|]. intros q [<-|I]; auto.
  - apply IH; assumption.
Qed.
Lemma alloc_trs_above b l : forall h, above b h -> (b <= List.length h)%nat -> let '(h', ks) := alloc_trs h l in
  above b h' /\ (b <= List.length h')%nat /\ (forall k, In k ks -> (b <= k)%nat).
Proof.
  induction l as [|[c|] l IH]; intros h A L; cbn [alloc_trs].
  - split; [exact A|]. split; [exact L|intros k []].
  - assert (A1 : above b (h ++ [NTr c])%list) by (apply above_snoc; [exact A|intros k []]). assert (L1 : (b <= List.length (h ++ [NTr c])%list)%nat) by (rewrite app_length; lia).
    specialize (IH _ A1 L1). destruct (alloc_trs (h ++ [NTr c])%list l) as [h2 ks]. destruct IH as (A2 & L2 & K2). split; [exact A2|]. split; [exact L2|]. intros q [<-|I]; auto.
  - apply IH; assumption.
Qed.
Lemma alloc_ins_above b a h : above b h -> (b <= List.length h)%nat -> let '(h', n) := alloc_ins h a in above b h' /\ (b <= n)%nat.
Proof.
  intros A L. unfold alloc_ins. pose proof (alloc_trs_above b (i_trs a) h A L) as T. destruct (alloc_trs h (i_trs a)) as [h1 ts]. destruct T as (A1 & L1 & K1).
  pose proof (alloc_pbrs_above b (i_pbrs a) h1 A1 L1) as P. destruct (alloc_pbrs h1 (i_pbrs a)) as [h2 ps]. destruct P as (A2 & L2 & K2). split; [|lia].
  set (k := List.length h2) in *. change [NTrs false ts; NPbrs ps; NIns (i_label a) k (S k)] with ([NTrs false ts] ++ [NPbrs ps] ++ [NIns (i_label a) k (S k)])%list. rewrite !app_assoc.
  apply above_snoc; [apply above_snoc; [apply above_snoc; [exact A2|exact K1]|exact K2]|]. intros q [<-|[<-|[]]]; lia.
Qed.
Lemma above_end h : above (List.length h) h.
Proof. intros n d k L E. apply nth_lt in E. lia. Qed.

(* ---- the parsers give values the heap can hold ---- *)
Lemma processPBR_good W a r : processPBR W a = Gives r -> pbr_good r.
Proof.
  unfold processPBR. destruct (unpackageAntlrPermission _ _); [|discriminate]. destruct (convert _ _ _ _ _) as [| | |t] eqn:E; try discriminate; intros [= <-]; cbn.
  - intros t [= ].
  - intros u [= <-]. now apply convert_full in E as [_ E].
Qed.
Lemma push1_good W l r : Forall pbr_good l -> pbr_good r -> Forall pbr_good (pbrs_push1 W l (PLRule r)).
Proof. intros F G. cbn. unfold push1. destruct (pbrs_policy W l r); [|exact F]. apply Forall_app. auto. Qed.
Lemma processPBRs_good W : forall xs l l' ok, Forall pbr_good l -> processPBRs W l xs = Some (l', ok) -> Forall pbr_good l'.
Proof.
  induction xs as [|[a|] xs IH]; intros l l' ok F H; cbn [processPBRs] in H; [injection H as <- <-; exact F| |eauto].
  destruct (processPBR W a) as [| |r] eqn:E; [discriminate|injection H as <- <-; exact F|]. eapply IH; [|exact H]. apply push1_good; [exact F|]. eapply processPBR_good. exact E.
Qed.
Lemma fold_push_good W : forall p l, Forall pbr_good l -> Forall pbr_good p -> Forall pbr_good (fold_left (fun l r => pbrs_push1 W l (PLRule r)) p l).
Proof. induction p as [|r p IH]; intros l F G; [exact F|]. inversion G; subst. apply (IH (pbrs_push1 W l (PLRule r))); [now apply push1_good|assumption]. Qed.
Lemma trs_push1_some l r : Forall (fun r : rule => r <> None) l -> Forall (fun r : rule => r <> None) (trs_push1 l (TRule r)).
Proof.
  intros F. cbn [trs_push1]. unfold push1. destruct ((List.length l <? 9)%nat && trs_policy l r)%bool eqn:E; [|exact F]. apply Forall_app. split; [exact F|]. constructor; [|constructor].
  apply andb_prop in E as [_ E]. intros ->. discriminate E.
Qed.
Lemma fold_target_some : forall t l, Forall (fun r : rule => r <> None) l -> Forall (fun r : rule => r <> None) (fold_left targetPush1 t l).
Proof. induction t as [|r t IH]; intros l F; [exact F|]. cbn [fold_left]. apply IH. unfold targetPush1. destruct (negb _); [now apply trs_push1_some|exact F]. Qed.
Lemma parse_good W raw a : parseInstruction W raw = Gives (Some a) -> instr_good a.
Proof.
  unfold parseInstruction. destruct (w_ins W (condenseWHSP raw)) as [x|]; [|discriminate]. destruct (processTRs W (ai_trs x)) as [[t okt]|]; [|discriminate].
  destruct (processPBRs W [] (ai_pbrs x)) as [[p okp]|] eqn:P; [|discriminate]. cbn [ins_set ins_valid]. intros [= <-]. split.
  - cbn. unfold setLabel. cbn. destruct (_ && _)%bool; cbn; apply fold_target_some; constructor.
  - cbn. unfold setLabel. cbn. destruct (_ && _)%bool; cbn; (apply fold_push_good; [constructor|]); eapply processPBRs_good; [constructor|exact P|constructor|exact P].
Qed.

(* ---- writing to a list or an instruction leaves rules alone ---- *)
Definition box (d : node) : bool := match d with NTrs _ _ | NPbrs _ | NIns _ _ _ | NInss _ => true | _ => false end.
Section Box.
Variables h h' : heap.
Hypothesis Len : List.length h' = List.length h.
Hypothesis B : forall m, nth_error h' m = nth_error h m \/ exists d e, nth_error h m = Some d /\ nth_error h' m = Some e /\ box d = true /\ box e = true.
Lemma box_tree : forall f n, tree_at f h' n = tree_at f h n.
Proof.
  induction f as [|f IH]; intros n; [reflexivity|]. cbn [tree_at]. destruct (B n) as [->|(d & e & -> & -> & D & E)].
  - destruct (nth_error h n) as [d|]; [|reflexivity]. destruct d; try reflexivity. rewrite (map_ext _ _ IH). reflexivity.
  - destruct d; try discriminate D; destruct e; try discriminate E; reflexivity.
Qed.
Lemma box_perm p : perm_at h' p = perm_at h p.
Proof. unfold perm_at, rd. destruct p as [n|]; [|reflexivity]. destruct (B n) as [->|(d & e & -> & -> & D & E)]; [reflexivity|]. destruct d; try discriminate D; destruct e; try discriminate E; reflexivity. Qed.
Lemma box_bctx b : bctx_at h' b = bctx_at h b.
Proof.
  destruct b as [| |n]; try reflexivity. cbn [bctx_at]. rewrite Len, box_tree. destruct (B n) as [->|(d & e & -> & -> & D & E)]; [reflexivity|].
  destruct d; try discriminate D; destruct e; try discriminate E; reflexivity.
Qed.
Lemma box_pbr n : pbr_at h' n = pbr_at h n.
Proof.
  unfold pbr_at. destruct (B n) as [->|(d & e & -> & -> & D & E)]; [|destruct d; try discriminate D; destruct e; try discriminate E; reflexivity].
  destruct (nth_error h n) as [d|]; [|reflexivity]. destruct d as [| | |p b| | | | |]; try reflexivity. rewrite box_perm. destruct b as [b|]; [|reflexivity]. now rewrite box_bctx.
Qed.
Lemma box_tr n : tr_at h' n = tr_at h n.
Proof. unfold tr_at. destruct (B n) as [->|(d & e & -> & -> & D & E)]; [reflexivity|]. destruct d; try discriminate D; destruct e; try discriminate E; reflexivity. Qed.
Lemma box_pbrs n : nth_error h' n = nth_error h n -> pbrs_at h' n = pbrs_at h n.
Proof. intros E. unfold pbrs_at. rewrite E. destruct (nth_error h n) as [d|]; [|reflexivity]. destruct d; try reflexivity. now rewrite (map_ext _ _ box_pbr). Qed.
Lemma box_trs n : nth_error h' n = nth_error h n -> trs_at h' n = trs_at h n.
Proof. intros E. unfold trs_at. rewrite E. destruct (nth_error h n) as [d|]; [|reflexivity]. destruct d; try reflexivity. now rewrite (map_ext _ _ box_tr). Qed.
End Box.
Lemma box_wr h n d e : nth_error h n = Some d -> box d = true -> box e = true ->
  forall m, nth_error (wr h n e) m = nth_error h m \/ exists d e', nth_error h m = Some d /\ nth_error (wr h n e) m = Some e' /\ box d = true /\ box e' = true.
Proof.
  intros E D F m. destruct (Nat.eq_dec m n) as [->|N]; [right|left; now apply wr_other]. exists d, e. split; [exact E|]. split; [|auto]. apply wr_same. now apply nth_lt in E.
Qed.
(* a list of instructions: no instruction looks at one *)
Lemma inss_wr h n ks ks' k : nth_error h n = Some (NInss ks) -> ins_at (wr h n (NInss ks')) k = ins_at h k.
Proof.
  intros E. pose proof (nth_lt _ _ _ E) as L. pose proof (box_wr h n _ (NInss ks') E eq_refl eq_refl) as B. pose proof (wr_len h n (NInss ks')) as Len.
  assert (T : forall t, trs_at (wr h n (NInss ks')) t = trs_at h t).
  { intros t. destruct (Nat.eq_dec t n) as [->|N]; [|apply box_trs; [exact B|now apply wr_other]]. unfold trs_at. now rewrite wr_same, E. }
  assert (P : forall t, pbrs_at (wr h n (NInss ks')) t = pbrs_at h t).
  { intros t. destruct (Nat.eq_dec t n) as [->|N]; [|apply box_pbrs; [exact Len|exact B|now apply wr_other]]. unfold pbrs_at. now rewrite wr_same, E. }
  unfold ins_at. destruct (Nat.eq_dec k n) as [->|N]; [now rewrite wr_same, E|]. rewrite wr_other by exact N.
  destruct (nth_error h k) as [d|]; [|reflexivity]. destruct d; try reflexivity. now rewrite T, P.
Qed.
