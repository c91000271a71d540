(* Lemmas for C138: two heaps that agree up to the names of the objects. *)
From Coq Require Import String Ascii List PeanoNat NArith ZArith Bool Lia.
From Verif Require Import GoStr Shifty MMisc MKw MRights MLists MRule MConv MTree MHeap MAci MWhole SWhole PWhole SWholeS.
Import ListNotations.

Definition rel := nat -> nat -> Prop.
Inductive orel (R : rel) : option nat -> option nat -> Prop :=
| O_none : orel R None None
| O_some n m : R n m -> orel R (Some n) (Some m).
Inductive brel (R : rel) : bref -> bref -> Prop :=
| B_rule : brel R BZRule BZRule
| B_stack : brel R BZStack BZStack
| B_ref n m : R n m -> brel R (BRef n) (BRef m).
Inductive obrel (R : rel) : option bref -> option bref -> Prop :=
| OB_none : obrel R None None
| OB_some b c : brel R b c -> obrel R (Some b) (Some c).
Inductive nrel (R : rel) : node -> node -> Prop :=
| R_perm d v : nrel R (NPerm d v) (NPerm d v)
| R_bind c : nrel R (NBind c) (NBind c)
| R_stk w p f d ks js : Forall2 R ks js -> nrel R (NStk w p f d ks) (NStk w p f d js)
| R_pbr p q b c : orel R p q -> obrel R b c -> nrel R (NPbr p b) (NPbr q c)
| R_pbrs ks js : Forall2 R ks js -> nrel R (NPbrs ks) (NPbrs js)
| R_tr c : nrel R (NTr c) (NTr c)
| R_trs b ks js : Forall2 R ks js -> nrel R (NTrs b ks) (NTrs b js)
| R_ins a t u p q : R t u -> R p q -> nrel R (NIns a t p) (NIns a u q)
| R_inss ks js : Forall2 R ks js -> nrel R (NInss ks) (NInss js).
Definition sub (R R' : rel) : Prop := forall n m, R n m -> R' n m.
Lemma F2_sub R R' l l' : sub R R' -> Forall2 R l l' -> Forall2 R' l l'.
Proof. intros S. induction 1; constructor; auto. Qed.
Lemma orel_sub R R' p q : sub R R' -> orel R p q -> orel R' p q.
Proof. intros S []; constructor; auto. Qed.
Lemma brel_sub R R' p q : sub R R' -> brel R p q -> brel R' p q.
Proof. intros S []; constructor; auto. Qed.
Lemma obrel_sub R R' p q : sub R R' -> obrel R p q -> obrel R' p q.
Proof. intros S []; constructor; eauto using brel_sub. Qed.
Lemma nrel_sub R R' d e : sub R R' -> nrel R d e -> nrel R' d e.
Proof. intros S []; constructor; eauto using F2_sub, orel_sub, obrel_sub. Qed.
Lemma nrel_kids R d e : nrel R d e -> Forall2 R (kids d) (kids e).
Proof.
  intros []; cbn [kids]; auto. match goal with H : orel _ _ _ |- _ => destruct H end; match goal with H : obrel _ _ _ |- _ => destruct H as [|? ? []] end; cbn; auto.
Qed.

Definition hsim (R : rel) (h t : heap) : Prop :=
  (forall n m, R n m -> exists d e, nth_error h n = Some d /\ nth_error t m = Some e /\ nrel R d e) /\
  (forall n m n' m', R n m -> R n' m' -> (n = n' <-> m = m')).
Lemma hsim_lt R h t n m : hsim R h t -> R n m -> (n < List.length h)%nat /\ (m < List.length t)%nat.
Proof. intros [H _] E. destruct (H n m E) as (d & e & A & B & _). split; eapply nth_lt; eauto. Qed.
(* what is read *)
Lemma F2_map {A} (R : rel) (f g : nat -> A) l l' : (forall n m, R n m -> f n = g m) -> Forall2 R l l' -> map f l = map g l'.
Proof. intros H. induction 1; cbn; f_equal; auto. Qed.
Section Read.
Variables (R : rel) (h t : heap).
Hypothesis S : hsim R h t.
Lemma tree_sim : forall f n m, R n m -> tree_at f h n = tree_at f t m.
Proof.
  induction f as [|f IH]; intros n m E; cbn [tree_at]; [reflexivity|]. destruct (proj1 S n m E) as (d & e & -> & -> & N). destruct N; try reflexivity.
  now rewrite (F2_map R (tree_at f h) (tree_at f t) ks js IH).
Qed.
Lemma tree_len_sim n m : R n m -> tree_at (List.length h) h n = tree_at (List.length t) t m.
Proof.
  intros E. destruct (tree_at (List.length h) h n) as [x|] eqn:A.
  - rewrite (tree_sim _ n m E) in A. symmetry. now apply tree_deep in A.
  - destruct (tree_at (List.length t) t m) as [x|] eqn:B; [|reflexivity]. rewrite <- (tree_sim _ n m E) in B. apply tree_deep in B. congruence.
Qed.
Lemma perm_sim p q : orel R p q -> perm_at h p = perm_at t q.
Proof. intros [|n m E]; [reflexivity|]. unfold perm_at, rd. destruct (proj1 S n m E) as (d & e & -> & -> & []); reflexivity. Qed.
Lemma bctx_sim b c : brel R b c -> bctx_at h b = bctx_at t c.
Proof.
  intros [| |n m E]; [reflexivity|reflexivity|]. unfold bctx_at. rewrite (tree_len_sim n m E). destruct (proj1 S n m E) as (d & e & -> & -> & []); reflexivity.
Qed.
Lemma pbr_sim n m : R n m -> pbr_at h n = pbr_at t m.
Proof.
  intros E. unfold pbr_at. destruct (proj1 S n m E) as (d & e & -> & -> & N). destruct N as [| | |p q b c P B| | | | |]; try reflexivity.
  rewrite (perm_sim p q P). destruct B as [|b c B]; [reflexivity|]. now rewrite (bctx_sim b c B).
Qed.
Lemma pbrs_sim n m : R n m -> pbrs_at h n = pbrs_at t m.
Proof.
  intros E. unfold pbrs_at. destruct (proj1 S n m E) as (d & e & -> & -> & N). destruct N; try reflexivity. now rewrite (F2_map R _ _ ks js pbr_sim).
Qed.
Lemma tr_sim n m : R n m -> tr_at h n = tr_at t m.
Proof. intros E. unfold tr_at. destruct (proj1 S n m E) as (d & e & -> & -> & []); reflexivity. Qed.
Lemma trs_sim n m : R n m -> trs_at h n = trs_at t m.
Proof.
  intros E. unfold trs_at. destruct (proj1 S n m E) as (d & e & -> & -> & N). destruct N; try reflexivity. now rewrite (F2_map R _ _ ks js tr_sim).
Qed.
Lemma ins_sim n m : R n m -> ins_at h n = ins_at t m.
Proof.
  intros E. unfold ins_at. destruct (proj1 S n m E) as (d & e & -> & -> & N). destruct N as [| | | | | | |a t' u p q T P|]; try reflexivity.
  now rewrite (trs_sim _ _ T), (pbrs_sim _ _ P).
Qed.
Lemma itext_sim W n m : R n m -> itext W h n = itext W t m.
Proof. intros E. unfold itext. now rewrite (ins_sim n m E). Qed.
Lemma text_sim W n m : R n m -> text_at W h n = text_at W t m.
Proof.
  intros E. unfold text_at. rewrite (tree_len_sim n m E), (pbr_sim n m E), (pbrs_sim n m E), (trs_sim n m E), (itext_sim W n m E).
  destruct (proj1 S n m E) as (d & e & -> & -> & N). destruct N; try reflexivity. now rewrite (F2_map R (itext W h) (itext W t) ks js (itext_sim W)).
Qed.
Lemma bref_valid_sim b c : brel R b c -> bref_valid h b = bref_valid t c.
Proof. intros [| |n m E]; [reflexivity|reflexivity|]. unfold bref_valid. destruct (proj1 S n m E) as (d & e & -> & -> & []); reflexivity. Qed.
End Read.

(* what is written *)
Definition ok (R : rel) (h t : heap) (R' : rel) (h' t' : heap) : Prop :=
  hsim R' h' t' /\ sub R R' /\ (forall n m, R' n m -> R n m \/ (List.length h <= n)%nat /\ (List.length t <= m)%nat) /\
  (List.length h <= List.length h')%nat /\ (List.length t <= List.length t')%nat.
Lemma ok_refl R h t : hsim R h t -> ok R h t R h t.
Proof. intros S. split; [exact S|]. split; [now intros n m|]. split; [auto|lia]. Qed.
Lemma ok_trans R h t R1 h1 t1 R2 h2 t2 : ok R h t R1 h1 t1 -> ok R1 h1 t1 R2 h2 t2 -> ok R h t R2 h2 t2.
Proof.
  intros (S1 & U1 & N1 & A1 & B1) (S2 & U2 & N2 & A2 & B2). split; [exact S2|]. split; [intros n m E; auto|]. split; [|lia].
  intros n m E. destruct (N2 n m E) as [E1|[L M]]; [|right; lia]. apply N1. exact E1.
Qed.
Lemma ok_sim R h t R' h' t' : ok R h t R' h' t' -> hsim R' h' t'. Proof. now intros (S & _). Qed.
Lemma ok_sub R h t R' h' t' : ok R h t R' h' t' -> sub R R'. Proof. now intros (_ & S & _). Qed.
Lemma nth_app_old {A} (h e : list A) n d : nth_error h n = Some d -> nth_error (h ++ e)%list n = Some d.
Proof. intros E. rewrite nth_error_app1; [exact E|]. now apply nth_lt in E. Qed.
Lemma ok_snoc R h t d e : hsim R h t -> nrel R d e -> exists R', ok R h t R' (h ++ [d])%list (t ++ [e])%list /\ R' (List.length h) (List.length t).
Proof.
  intros S N. set (R' := fun n m => R n m \/ n = List.length h /\ m = List.length t). assert (U : sub R R') by (intros n m E; now left).
  exists R'. split; [|right; auto]. split; [split|].
  - intros n m [E|[-> ->]].
    + destruct (proj1 S n m E) as (a & b & A & B & X). exists a, b. split; [now apply nth_app_old|]. split; [now apply nth_app_old|]. now apply (nrel_sub R).
    + exists d, e. rewrite !nth_snoc. split; [reflexivity|]. split; [reflexivity|]. now apply (nrel_sub R).
  - intros n m n' m' [E|[-> ->]] [F|[-> ->]].
    + now apply (proj2 S).
    + destruct (hsim_lt _ _ _ _ _ S E). split; lia.
    + destruct (hsim_lt _ _ _ _ _ S F). split; lia.
    + tauto.
  - split; [exact U|]. split; [intros n m [E|[-> ->]]; [now left|right; lia]|]. rewrite !app_length. lia.
Qed.
Lemma ok_wr R h t n m d e : hsim R h t -> R n m -> nrel R d e -> ok R h t R (wr h n d) (wr t m e).
Proof.
  intros S E N. split; [split|].
  - intros n' m' F. destruct (proj1 S n' m' F) as (a & b & A & B & X). destruct (Nat.eq_dec n' n) as [->|D].
    + assert (m' = m) as -> by (now apply (proj2 S n m' n m F E)). destruct (hsim_lt _ _ _ _ _ S E). exists d, e. rewrite !wr_same by assumption. auto.
    + assert (m' <> m) by (intros Q; apply D; now apply (proj2 S n' m' n m F E)). exists a, b. rewrite !wr_other by assumption. auto.
  - apply S.
  - split; [now intros ? ?|]. split; [auto|]. rewrite !wr_len. lia.
Qed.

(* new objects *)
Lemma alloc_tree_sim : forall x h t R, hsim R h t -> let '(h', n) := alloc_tree h x in let '(t', m) := alloc_tree t x in exists R', ok R h t R' h' t' /\ R' n m.
Proof.
  fix IH 1. intros [c|w p f d ts] h t R S.
  - cbn [alloc_tree]. destruct (ok_snoc R h t (NBind c) (NBind c) S (R_bind R c)) as (R' & O & N). eauto.
  - rewrite !alloc_stk.
    assert (X : forall h t R, hsim R h t -> let '(h', ks) := alloc_trees h ts in let '(t', js) := alloc_trees t ts in exists R', ok R h t R' h' t' /\ Forall2 R' ks js).
    { clear h t R S. induction ts as [|x ts IHl]; intros h t R S; cbn [alloc_trees]; [exists R; split; [now apply ok_refl|constructor]|].
      specialize (IH x h t R S). destruct (alloc_tree h x) as [h1 k], (alloc_tree t x) as [t1 j]. destruct IH as (R1 & O1 & K).
      specialize (IHl h1 t1 R1 (ok_sim _ _ _ _ _ _ O1)). destruct (alloc_trees h1 ts) as [h2 ks], (alloc_trees t1 ts) as [t2 js]. destruct IHl as (R2 & O2 & F).
      exists R2. split; [eapply ok_trans; eauto|]. constructor; [|exact F]. now apply (ok_sub _ _ _ _ _ _ O2). }
    specialize (X h t R S). destruct (alloc_trees h ts) as [h1 ks], (alloc_trees t ts) as [t1 js]. destruct X as (R1 & O1 & F).
    destruct (ok_snoc R1 h1 t1 _ _ (ok_sim _ _ _ _ _ _ O1) (R_stk R1 w p f d ks js F)) as (R2 & O2 & N). exists R2. split; [eapply ok_trans; eauto|exact N].
Qed.
Lemma alloc_bctx_sim b h t R : hsim R h t -> let '(h', r) := alloc_bctx h b in let '(t', q) := alloc_bctx t b in exists R', ok R h t R' h' t' /\ brel R' r q.
Proof.
  intros S. destruct b as [[c|]|[x|]]; cbn [alloc_bctx].
  - destruct (ok_snoc R h t (NBind c) (NBind c) S (R_bind R c)) as (R' & O & N). exists R'. split; [exact O|now constructor].
  - exists R. split; [now apply ok_refl|constructor].
  - pose proof (alloc_tree_sim x h t R S) as X. destruct (alloc_tree h x) as [h1 n], (alloc_tree t x) as [t1 m]. destruct X as (R' & O & N). exists R'. split; [exact O|now constructor].
  - exists R. split; [now apply ok_refl|constructor].
Qed.
Lemma alloc_perm_sim p h t R : hsim R h t -> let '(h', r) := alloc_perm h p in let '(t', q) := alloc_perm t p in exists R', ok R h t R' h' t' /\ orel R' r q.
Proof.
  intros S. destruct p as [|d v]; cbn [alloc_perm]; [exists R; split; [now apply ok_refl|constructor]|].
  destruct (ok_snoc R h t (NPerm d v) (NPerm d v) S (R_perm R d v)) as (R' & O & N). exists R'. split; [exact O|now constructor].
Qed.
Lemma alloc_parts_sim x h t R : hsim R h t -> let '(h', p, b) := alloc_parts h x in let '(t', q, c) := alloc_parts t x in
  exists R', ok R h t R' h' t' /\ orel R' p q /\ obrel R' b c.
Proof.
  intros S. unfold alloc_parts. pose proof (alloc_perm_sim (pb_p x) h t R S) as P. destruct (alloc_perm h (pb_p x)) as [h1 p], (alloc_perm t (pb_p x)) as [t1 q]. destruct P as (R1 & O1 & P).
  destruct (pb_b x) as [b|]; [|exists R1; split; [exact O1|split; [exact P|constructor]]].
  pose proof (alloc_bctx_sim b h1 t1 R1 (ok_sim _ _ _ _ _ _ O1)) as B. destruct (alloc_bctx h1 b) as [h2 r], (alloc_bctx t1 b) as [t2 r']. destruct B as (R2 & O2 & B).
  exists R2. split; [eapply ok_trans; eauto|]. split; [eapply orel_sub; [exact (ok_sub _ _ _ _ _ _ O2)|exact P]|now constructor].
Qed.
Lemma alloc_pbr_sim x h t R : hsim R h t -> let '(h', n) := alloc_pbr h x in let '(t', m) := alloc_pbr t x in exists R', ok R h t R' h' t' /\ R' n m.
Proof.
  intros S. unfold alloc_pbr. pose proof (alloc_parts_sim x h t R S) as P. destruct (alloc_parts h x) as [[h1 p] b], (alloc_parts t x) as [[t1 q] c]. destruct P as (R1 & O1 & P & B).
  destruct (ok_snoc R1 h1 t1 _ _ (ok_sim _ _ _ _ _ _ O1) (R_pbr R1 p q b c P B)) as (R2 & O2 & N). exists R2. split; [eapply ok_trans; eauto|exact N].
Qed.
Lemma alloc_pbrs_sim : forall l h t R, hsim R h t -> let '(h', ks) := alloc_pbrs h l in let '(t', js) := alloc_pbrs t l in exists R', ok R h t R' h' t' /\ Forall2 R' ks js.
Proof.
  induction l as [|[x|] l IH]; intros h t R S; cbn [alloc_pbrs]; [exists R; split; [now apply ok_refl|constructor]| |now apply IH].
  pose proof (alloc_pbr_sim x h t R S) as P. destruct (alloc_pbr h x) as [h1 k], (alloc_pbr t x) as [t1 j]. destruct P as (R1 & O1 & K).
  specialize (IH h1 t1 R1 (ok_sim _ _ _ _ _ _ O1)). destruct (alloc_pbrs h1 l) as [h2 ks], (alloc_pbrs t1 l) as [t2 js]. destruct IH as (R2 & O2 & F).
  exists R2. split; [eapply ok_trans; eauto|]. constructor; [|exact F]. now apply (ok_sub _ _ _ _ _ _ O2).
Qed.
Lemma alloc_trs_sim : forall l h t R, hsim R h t -> let '(h', ks) := alloc_trs h l in let '(t', js) := alloc_trs t l in exists R', ok R h t R' h' t' /\ Forall2 R' ks js.
Proof.
  induction l as [|[c|] l IH]; intros h t R S; cbn [alloc_trs]; [exists R; split; [now apply ok_refl|constructor]| |now apply IH].
  destruct (ok_snoc R h t (NTr c) (NTr c) S (R_tr R c)) as (R1 & O1 & K).
  specialize (IH _ _ R1 (ok_sim _ _ _ _ _ _ O1)). destruct (alloc_trs (h ++ [NTr c])%list l) as [h2 ks], (alloc_trs (t ++ [NTr c])%list l) as [t2 js]. destruct IH as (R2 & O2 & F).
  exists R2. split; [eapply ok_trans; eauto|]. constructor; [|exact F]. now apply (ok_sub _ _ _ _ _ _ O2).
Qed.
Lemma ok_three R h t ks js ps qs a : hsim R h t -> Forall2 R ks js -> Forall2 R ps qs -> exists R',
  ok R h t R' (h ++ [NTrs false ks; NPbrs ps; NIns a (List.length h) (S (List.length h))])%list (t ++ [NTrs false js; NPbrs qs; NIns a (List.length t) (S (List.length t))])%list /\
  R' (S (S (List.length h))) (S (S (List.length t))).
Proof.
  intros S F G. destruct (ok_snoc R h t _ _ S (R_trs R false ks js F)) as (R1 & O1 & N1).
  destruct (ok_snoc R1 _ _ _ _ (ok_sim _ _ _ _ _ _ O1) (R_pbrs R1 ps qs (F2_sub _ _ _ _ (ok_sub _ _ _ _ _ _ O1) G))) as (R2 & O2 & N2).
  rewrite !app_length in N2. cbn [List.length] in N2. rewrite !Nat.add_1_r in N2.
  destruct (ok_snoc R2 _ _ _ _ (ok_sim _ _ _ _ _ _ O2) (R_ins R2 a _ _ _ _ (ok_sub _ _ _ _ _ _ O2 _ _ N1) N2)) as (R3 & O3 & N3).
  rewrite !app_length in N3. cbn [List.length] in N3. rewrite !Nat.add_1_r in N3.
  pose proof (ok_trans _ _ _ _ _ _ _ _ _ (ok_trans _ _ _ _ _ _ _ _ _ O1 O2) O3) as O. rewrite <- !app_assoc in O. cbn [app] in O.
  exists R3. split; [exact O|exact N3].
Qed.
Lemma alloc_ins_sim a h t R : hsim R h t -> let '(h', n) := alloc_ins h a in let '(t', m) := alloc_ins t a in exists R', ok R h t R' h' t' /\ R' n m.
Proof.
  intros S. unfold alloc_ins. pose proof (alloc_trs_sim (i_trs a) h t R S) as P. destruct (alloc_trs h (i_trs a)) as [h1 ks], (alloc_trs t (i_trs a)) as [t1 js]. destruct P as (R1 & O1 & F).
  pose proof (alloc_pbrs_sim (i_pbrs a) h1 t1 R1 (ok_sim _ _ _ _ _ _ O1)) as P. destruct (alloc_pbrs h1 (i_pbrs a)) as [h2 ps], (alloc_pbrs t1 (i_pbrs a)) as [t2 qs]. destruct P as (R2 & O2 & G).
  destruct (ok_three R2 h2 t2 ks js ps qs (i_label a) (ok_sim _ _ _ _ _ _ O2) (F2_sub _ _ _ _ (ok_sub _ _ _ _ _ _ O2) F) G) as (R3 & O3 & N).
  exists R3. split; [|exact N]. eapply ok_trans; [exact O1|]. eapply ok_trans; eauto.
Qed.

(* the loops *)
Definition vrel (R : rel) (V : nat -> Prop) (v v' : nat -> option nat) : Prop := forall x, V x -> orel R (v x) (v' x).
Lemma vrel_sub R R' V v v' : sub R R' -> vrel R V v v' -> vrel R' V v v'.
Proof. intros S H x X. apply (orel_sub R); auto. Qed.
Lemma F2_app (R : rel) a b c d : Forall2 R a b -> Forall2 R c d -> Forall2 R (a ++ c)%list (b ++ d)%list.
Proof. apply Forall2_app. Qed.
Lemma F2_nth (R : rel) l l' i : Forall2 R l l' -> orel R (nth_error l i) (nth_error l' i).
Proof. intros F. revert i. induction F; intros [|i]; cbn; try constructor; auto. Qed.
Lemma F2_len (R : rel) l l' : Forall2 R l l' -> List.length l = List.length l'.
Proof. induction 1; cbn; auto. Qed.
Lemma F2_pop (R : rel) l l' : Forall2 R l l' -> Forall2 R (removelast l) (removelast l').
Proof. induction 1 as [|a b l l' E F IH]; [constructor|]. destruct F; [constructor|]. cbn [removelast] in *. constructor; auto. Qed.
Lemma F2_last (R : rel) l l' : Forall2 R l l' -> orel R (last_ref l) (last_ref l').
Proof. intros F. unfold last_ref. rewrite (F2_len _ _ _ F). now apply F2_nth. Qed.
Lemma F2_wr (R : rel) l l' i n m : Forall2 R l l' -> R n m -> Forall2 R (wr l i n) (wr l' i m).
Proof. intros F E. revert i. induction F; intros [|i]; cbn; constructor; auto. Qed.
Section Loops.
Variable W : world.
Lemma bval_sim R V v v' a : vrel R V v v' -> (forall x, In x (bvars a) -> V x) -> obrel R (bval v a) (bval v' a).
Proof.
  intros H I. destruct a as [|x|x]; cbn [bval]; [constructor| |]; specialize (H x (I x (or_introl eq_refl))); destruct H; repeat constructor; assumption.
Qed.
Lemma pset_sim V v v' : forall xs R h t p q b c, hsim R h t -> vrel R V v v' -> (forall x, In x (flat_map pvars xs) -> V x) -> orel R p q -> obrel R b c ->
  match pset W v h p b xs, pset W v' t q c xs with
  | Some (h', p', b'), Some (t', q', c') => exists R', ok R h t R' h' t' /\ orel R' p' q' /\ obrel R' b' c'
  | None, None => True
  | _, _ => False
  end.
Proof.
  induction xs as [|x xs IH]; intros R h t p q b c S HV I P B; cbn [pset]; [exists R; split; [now apply ok_refl|auto]|].
  assert (K : exists R', ok R h t R' h t /\ orel R' p q /\ obrel R' b c) by (exists R; split; [now apply ok_refl|auto]).
  assert (I' : forall y, In y (flat_map pvars xs) -> V y) by (intros y Y; apply I; cbn [flat_map]; apply in_or_app; now right).
  destruct x as [s|y|a|].
  - destruct (parsePBR W s) as [| |[x|]]; [exact Logic.I|exact K| |exact K].
    pose proof (alloc_parts_sim x h t R S) as X. destruct (alloc_parts h x) as [[h1 p1] b1], (alloc_parts t x) as [[t1 q1] c1]. destruct X as (R1 & O1 & P1 & B1).
    specialize (IH R1 h1 t1 p1 q1 b1 c1 (ok_sim _ _ _ _ _ _ O1) (vrel_sub _ _ _ _ _ (ok_sub _ _ _ _ _ _ O1) HV) I' P1 B1).
    destruct (pset W v h1 p1 b1 xs) as [[[h2 p2] b2]|], (pset W v' t1 q1 c1 xs) as [[[t2 q2] c2]|]; try exact IH. destruct IH as (R2 & O2 & X). exists R2. split; [eapply ok_trans; eauto|exact X].
  - assert (Y : orel R (v y) (v' y)) by (apply HV, I; cbn; now left). rewrite (perm_sim R h t S _ _ Y). destruct (perm_valid _); [now apply IH|exact K].
  - pose proof (bval_sim R V v v' a HV (fun x X => I x (in_or_app _ _ _ (or_introl X)))) as Y. destruct Y as [|r r' Y]; [now apply IH|].
    rewrite (bref_valid_sim R h t S _ _ Y). destruct (bref_valid t r'); [apply IH; auto; now constructor|exact K].
  - now apply IH.
Qed.
Lemma push_pbr_sim R h t l l' m m' : hsim R h t -> Forall2 R l l' -> orel R m m' ->
  match push_pbr W h l m, push_pbr W t l' m' with Some k, Some k' => Forall2 R k k' | None, None => True | _, _ => False end.
Proof.
  intros S F [|n n' E]; cbn [push_pbr]; [exact F|]. rewrite (F2_map R _ _ l l' (pbr_sim R h t S) F), (pbr_sim R h t S n n' E).
  destruct (all (map (pbr_at t) l')) as [vs|]; [|exact I]. destruct (pbr_at t n') as [v|]; [|exact I]. destruct (pbrs_policy _ _ _); [apply F2_app; auto|exact F].
Qed.
Lemma push_pbrs_sim V v v' : forall xs R h t l l', hsim R h t -> vrel R V v v' -> (forall x, In x (flat_map lvars xs) -> V x) -> Forall2 R l l' ->
  match push_pbrs W v h l xs, push_pbrs W v' t l' xs with
  | Some (h', k), Some (t', k') => exists R', ok R h t R' h' t' /\ Forall2 R' k k'
  | None, None => True
  | _, _ => False
  end.
Proof.
  induction xs as [|x xs IH]; intros R h t l l' S HV I F; cbn [push_pbrs]; [exists R; split; [now apply ok_refl|auto]|].
  assert (K : exists R', ok R h t R' h t /\ Forall2 R' l l') by (exists R; split; [now apply ok_refl|auto]).
  assert (I' : forall y, In y (flat_map lvars xs) -> V y) by (intros y Y; apply I; cbn [flat_map]; apply in_or_app; now right).
  destruct x as [s|y|].
  - destruct (parsePBR W s) as [| |[x|]]; [exact Logic.I|exact K| |now apply IH].
    pose proof (alloc_pbr_sim x h t R S) as X. destruct (alloc_pbr h x) as [h1 n], (alloc_pbr t x) as [t1 m]. destruct X as (R1 & O1 & N).
    pose proof (push_pbr_sim R1 h1 t1 l l' (Some n) (Some m) (ok_sim _ _ _ _ _ _ O1) (F2_sub _ _ _ _ (ok_sub _ _ _ _ _ _ O1) F) (O_some R1 n m N)) as P.
    destruct (push_pbr W h1 l (Some n)) as [l1|], (push_pbr W t1 l' (Some m)) as [l1'|]; try contradiction; try exact Logic.I.
    specialize (IH R1 h1 t1 l1 l1' (ok_sim _ _ _ _ _ _ O1) (vrel_sub _ _ _ _ _ (ok_sub _ _ _ _ _ _ O1) HV) I' P).
    destruct (push_pbrs W v h1 l1 xs) as [[h2 k]|], (push_pbrs W v' t1 l1' xs) as [[t2 k']|]; try exact IH. destruct IH as (R2 & O2 & X). exists R2. split; [eapply ok_trans; eauto|exact X].
  - assert (Y : orel R (v y) (v' y)) by (apply HV, I; cbn; now left). pose proof (push_pbr_sim R h t l l' _ _ S F Y) as P.
    destruct (push_pbr W h l (v y)) as [l1|], (push_pbr W t l' (v' y)) as [l1'|]; try contradiction; try exact Logic.I. now apply IH.
  - now apply IH.
Qed.
Lemma push_each_sim R h t : hsim R h t -> forall ms ms', Forall2 R ms ms' -> forall l l', Forall2 R l l' ->
  match push_each W h l ms, push_each W t l' ms' with Some k, Some k' => Forall2 R k k' | None, None => True | _, _ => False end.
Proof.
  intros S ms ms'. induction 1 as [|a b ms ms' E F IH]; intros l l' G; cbn [push_each]; [exact G|].
  pose proof (push_pbr_sim R h t l l' (Some a) (Some b) S G (O_some R a b E)) as P. destruct (push_pbr W h l (Some a)), (push_pbr W t l' (Some b)); try contradiction; try exact Logic.I. now apply IH.
Qed.
Lemma push_tr_sim R h t l l' m m' : hsim R h t -> Forall2 R l l' -> orel R m m' -> Forall2 R (push_tr h l m) (push_tr t l' m').
Proof.
  intros S F [|n n' E]; cbn [push_tr]; [exact F|]. rewrite (F2_map R _ _ l l' (tr_sim R h t S) F), (tr_sim R h t S n n' E), (F2_len _ _ _ F).
  destruct (_ && _)%bool; [apply F2_app; auto|exact F].
Qed.
Lemma push_many_sim R h t stop : hsim R h t -> forall ms ms', Forall2 (orel R) ms ms' -> forall l l', Forall2 R l l' ->
  Forall2 R (push_many stop (push_tr h) l ms) (push_many stop (push_tr t) l' ms').
Proof.
  intros S ms ms'. induction 1 as [|a b ms ms' E F IH]; intros l l' G; cbn [push_many]; [exact G|].
  pose proof (push_tr_sim R h t l l' a b S G E) as P. rewrite (F2_len _ _ _ P), (F2_len _ _ _ G). destruct (_ && _)%bool; auto.
Qed.
Lemma target_sim R h t : hsim R h t -> forall ms ms', Forall2 R ms ms' -> forall l l', Forall2 R l l' -> Forall2 R (fold_left (target1 h) ms l) (fold_left (target1 t) ms' l').
Proof.
  intros S ms ms'. induction 1 as [|a b ms ms' E F IH]; intros l l' G; cbn [fold_left]; [exact G|]. apply IH. unfold target1. rewrite (tr_sim R h t S a b E).
  destruct (negb _); [apply push_tr_sim; auto; now constructor|exact G].
Qed.
Lemma push_ins_sim R h t l l' m m' : hsim R h t -> Forall2 R l l' -> orel R m m' ->
  match push_ins W h l m, push_ins W t l' m' with Some k, Some k' => Forall2 R k k' | None, None => True | _, _ => False end.
Proof.
  intros S F [|n n' E]; cbn [push_ins]; [exact F|]. rewrite (F2_map R _ _ l l' (itext_sim R h t S W) F), (itext_sim R h t S W n n' E).
  destruct (all (map (itext W t) l')) as [vs|]; [|exact I]. destruct (itext W t n') as [v|]; [|exact I]. destruct (existsb _ _); [exact F|apply F2_app; auto].
Qed.
Lemma push_inss_sim V v v' : forall xs R h t l l', hsim R h t -> vrel R V v v' -> (forall x, In x (flat_map jvars xs) -> V x) -> Forall2 R l l' ->
  match push_inss W v h l xs, push_inss W v' t l' xs with
  | Some (h', k), Some (t', k') => exists R', ok R h t R' h' t' /\ Forall2 R' k k'
  | None, None => True
  | _, _ => False
  end.
Proof.
  induction xs as [|x xs IH]; intros R h t l l' S HV I F; cbn [push_inss]; [exists R; split; [now apply ok_refl|auto]|].
  assert (I' : forall y, In y (flat_map jvars xs) -> V y) by (intros y Y; apply I; cbn [flat_map]; apply in_or_app; now right).
  destruct x as [s|y|].
  - destruct (parseInstruction W s) as [| |[x|]]; [exact Logic.I|now apply IH| |now apply IH].
    pose proof (alloc_ins_sim x h t R S) as X. destruct (alloc_ins h x) as [h1 n], (alloc_ins t x) as [t1 m]. destruct X as (R1 & O1 & N).
    pose proof (push_ins_sim R1 h1 t1 l l' (Some n) (Some m) (ok_sim _ _ _ _ _ _ O1) (F2_sub _ _ _ _ (ok_sub _ _ _ _ _ _ O1) F) (O_some R1 n m N)) as P.
    destruct (push_ins W h1 l (Some n)) as [l1|], (push_ins W t1 l' (Some m)) as [l1'|]; try contradiction; try exact Logic.I.
    specialize (IH R1 h1 t1 l1 l1' (ok_sim _ _ _ _ _ _ O1) (vrel_sub _ _ _ _ _ (ok_sub _ _ _ _ _ _ O1) HV) I' P).
    destruct (push_inss W v h1 l1 xs) as [[h2 k]|], (push_inss W v' t1 l1' xs) as [[t2 k']|]; try exact IH. destruct IH as (R2 & O2 & X). exists R2. split; [eapply ok_trans; eauto|exact X].
  - assert (Y : orel R (v y) (v' y)) by (apply HV, I; cbn; now left). pose proof (push_ins_sim R h t l l' _ _ S F Y) as P.
    destruct (push_ins W h l (v y)) as [l1|], (push_ins W t l' (v' y)) as [l1'|]; try contradiction; try exact Logic.I. now apply IH.
  - now apply IH.
Qed.
End Loops.

(* statements *)
Inductive arel (R : rel) : option (nat * node) -> option (nat * node) -> Prop :=
| A_none : arel R None None
| A_some n m d e : R n m -> nrel R d e -> arel R (Some (n, d)) (Some (m, e)).
Section Step.
Variables (W : world) (V : nat -> Prop).
Definition ssim (R : rel) (s t : st) : Prop := hsim R (s_heap s) (s_heap t) /\ vrel R V (s_var s) (s_var t).
Definition sok (R : rel) (s t s' t' : st) : Prop := exists R', ok R (s_heap s) (s_heap t) R' (s_heap s') (s_heap t') /\ vrel R' V (s_var s') (s_var t').
Lemma sok_refl R s t : ssim R s t -> sok R s t s t.
Proof. intros [S H]. exists R. split; [now apply ok_refl|exact H]. Qed.
Lemma sok_trans R s t s1 t1 s2 t2 : (forall R', ssim R' s1 t1 -> sok R' s1 t1 s2 t2) -> sok R s t s1 t1 -> sok R s t s2 t2.
Proof. intros H (R1 & O1 & V1). destruct (H R1) as (R2 & O2 & V2); [split; [now apply ok_sim in O1|exact V1]|]. exists R2. split; [eapply ok_trans; eauto|exact V2]. Qed.
Lemma vrel_upd R v v' x p q : vrel R V v v' -> orel R p q -> vrel R V (upd v x p) (upd v' x q).
Proof. intros H E y Y. unfold upd. destruct (y =? x)%nat; auto. Qed.
Lemma at_var_sim R s t x : ssim R s t -> V x -> arel R (at_var s x) (at_var t x).
Proof.
  intros [S H] X. unfold at_var. destruct (H x X) as [|n m E]; [constructor|]. destruct (proj1 S n m E) as (d & e & -> & -> & N). now constructor.
Qed.
Lemma sok_var R s t x p q : ssim R s t -> orel R p q -> sok R s t (with_var s x p) (with_var t x q).
Proof. intros [S H] E. exists R. split; [now apply ok_refl|now apply vrel_upd]. Qed.
Lemma sok_fresh R s t x d e : ssim R s t -> nrel R d e -> sok R s t (fresh s x d) (fresh t x e).
Proof.
  intros [S H] N. destruct (ok_snoc R _ _ d e S N) as (R' & O & K). exists R'. split; [exact O|]. apply vrel_upd; [|now constructor]. exact (vrel_sub _ _ _ _ _ (ok_sub _ _ _ _ _ _ O) H).
Qed.
Lemma sok_node R s t n m d e : ssim R s t -> R n m -> nrel R d e -> sok R s t (with_node s n d) (with_node t m e).
Proof. intros [S H] E N. exists R. split; [now apply ok_wr|exact H]. Qed.
Lemma sok_node_var R s t n m d e z p q : ssim R s t -> R n m -> nrel R d e -> orel R p q -> sok R s t (with_var (with_node s n d) z p) (with_var (with_node t m e) z q).
Proof. intros [S H] E N P. exists R. split; [now apply ok_wr|now apply vrel_upd]. Qed.
Lemma on_stack_sim R s t x f g : ssim R s t -> V x -> (forall w p b d ks js, Forall2 R ks js -> nrel R (f w p b d ks) (g w p b d js)) -> sok R s t (on_stack s x f) (on_stack t x g).
Proof.
  intros S X F. unfold on_stack. destruct (at_var_sim R s t x S X) as [|n m d e E N]; [now apply sok_refl|]. destruct N; try now apply sok_refl. apply sok_node; auto.
Qed.
Lemma on_trs_sim R s t x f g : ssim R s t -> V x -> (forall b ks js, Forall2 R ks js -> nrel R (f b ks) (g b js)) -> sok R s t (on_trs s x f) (on_trs t x g).
Proof.
  intros S X F. unfold on_trs. destruct (at_var_sim R s t x S X) as [|n m d e E N]; [now apply sok_refl|]. destruct N; try now apply sok_refl. apply sok_node; auto.
Qed.
Lemma accepted_sim R s t y : ssim R s t -> V y -> orel R (accepted s y) (accepted t y).
Proof.
  intros S Y. unfold accepted. destruct (at_var_sim R s t y S Y) as [|n m d e E N]; [constructor|]. assert (acceptable d = acceptable e) as -> by (now destruct N). destruct (acceptable e); now constructor.
Qed.
Lemma of_sim R s t x : ssim R s t -> V x -> Forall2 R (trs_of s x) (trs_of t x) /\ Forall2 R (pbrs_of s x) (pbrs_of t x) /\ Forall2 R (inss_of s x) (inss_of t x).
Proof.
  intros S X. unfold trs_of, pbrs_of, inss_of. destruct (at_var_sim R s t x S X) as [|n m d e E N]; [auto|]. destruct N; auto.
Qed.
Lemma set1_sim R s t n m x : ssim R s t -> R n m -> (forall y, In y (svars x) -> V y) ->
  match set1 W s n x, set1 W t m x with Some s', Some t' => sok R s t s' t' | None, None => True | _, _ => False end.
Proof.
  intros S E I. unfold set1. pose proof S as [HS HV]. destruct (proj1 HS n m E) as (d & e & D1 & D2 & N). rewrite D1, D2. destruct N as [| | | | | | |a u u' p p' U P|]; try now apply sok_refl.
  assert (X : forall y, In y (svars x) -> orel R (s_var s y) (s_var t y)) by auto.
  destruct x as [y|y|y|y|y|]; cbn [svars] in *.
  - apply sok_node; auto. now constructor.
  - destruct (proj1 HS u u' U) as (d & e & -> & -> & N). destruct N; try now apply sok_refl. apply sok_node; auto. constructor. apply target_sim; auto. apply (of_sim R s t y S). auto with datatypes.
  - destruct (proj1 HS u u' U) as (d & e & -> & -> & N). destruct N; try now apply sok_refl. apply sok_node; auto. constructor. apply push_tr_sim; auto with datatypes.
  - destruct (proj1 HS p p' P) as (d & e & -> & -> & N). destruct N as [| | | |ks js F| | | |]; try now apply sok_refl.
    pose proof (push_pbr_sim W R _ _ ks js (s_var s y) (s_var t y) HS F (X y (or_introl eq_refl))) as Q. destruct (push_pbr W (s_heap s) ks (s_var s y)), (push_pbr W (s_heap t) js (s_var t y)); try exact Q.
    apply sok_node; auto. now constructor.
  - destruct (proj1 HS p p' P) as (d & e & -> & -> & N). destruct N as [| | | |ks js F| | | |]; try now apply sok_refl.
    pose proof (push_each_sim W R _ _ HS _ _ (proj1 (proj2 (of_sim R s t y S (I y (or_introl eq_refl))))) ks js F) as Q.
    destruct (push_each W (s_heap s) ks (pbrs_of s y)), (push_each W (s_heap t) js (pbrs_of t y)); try exact Q. apply sok_node; auto. now constructor.
  - now apply sok_refl.
Qed.
Lemma sets_sim n m : forall xs R s t, ssim R s t -> R n m -> (forall y, In y (flat_map svars xs) -> V y) ->
  match sets W s n xs, sets W t m xs with Some s', Some t' => sok R s t s' t' | None, None => True | _, _ => False end.
Proof.
  induction xs as [|x xs IH]; intros R s t S E I; cbn [sets]; [now apply sok_refl|].
  pose proof (set1_sim R s t n m x S E (fun y Y => I y (in_or_app _ _ _ (or_introl Y)))) as Q. destruct (set1 W s n x) as [s1|], (set1 W t m x) as [t1|]; try contradiction; try exact Logic.I.
  destruct Q as (R1 & O1 & V1). specialize (IH R1 s1 t1 (conj (ok_sim _ _ _ _ _ _ O1) V1) (ok_sub _ _ _ _ _ _ O1 _ _ E) (fun y Y => I y (in_or_app _ _ _ (or_intror Y)))).
  destruct (sets W s1 n xs) as [s2|], (sets W t1 m xs) as [t2|]; try contradiction; try exact Logic.I. destruct IH as (R2 & O2 & V2). exists R2. split; [eapply ok_trans; eauto|exact V2].
Qed.
Lemma sets_new_sim i xs R s t : ssim R s t -> (forall y, In y (flat_map svars xs) -> V y) ->
  match sets W (new_ins s i) (S (S (List.length (s_heap s)))) xs, sets W (new_ins t i) (S (S (List.length (s_heap t)))) xs with Some s', Some t' => sok R s t s' t' | None, None => True | _, _ => False end.
Proof.
  intros [S H] I. destruct (ok_three R _ _ [] [] [] [] "" S (Forall2_nil _) (Forall2_nil _)) as (R1 & O1 & N).
  assert (S1 : ssim R1 (new_ins s i) (new_ins t i)).
  { split; [exact (ok_sim _ _ _ _ _ _ O1)|]. cbn [new_ins s_var]. apply vrel_upd; [exact (vrel_sub _ _ _ _ _ (ok_sub _ _ _ _ _ _ O1) H)|now constructor]. }
  pose proof (sets_sim _ _ xs R1 _ _ S1 N I) as Q. destruct (sets W (new_ins s i) _ xs) as [s2|], (sets W (new_ins t i) _ xs) as [t2|]; try contradiction; try exact Logic.I.
  destruct Q as (R2 & O2 & V2). exists R2. split; [eapply ok_trans; [exact O1|exact O2]|exact V2].
Qed.
Lemma set_pbr_new_sim r xs R s t : ssim R s t -> (forall y, In y (flat_map pvars xs) -> V y) ->
  match (match pset W (s_var s) (s_heap s) None None xs with
    | Some (h, p, b) => Some (MkS (h ++ [NPbr p b])%list (upd (s_var s) r (Some (List.length h)))) | None => None end),
   (match pset W (s_var t) (s_heap t) None None xs with
    | Some (h, p, b) => Some (MkS (h ++ [NPbr p b])%list (upd (s_var t) r (Some (List.length h)))) | None => None end) with
  | Some s', Some t' => sok R s t s' t' | None, None => True | _, _ => False end.
Proof.
  intros [S H] I. pose proof (pset_sim W V _ _ xs R _ _ None None None None S H I (O_none R) (OB_none R)) as Q.
  destruct (pset W (s_var s) (s_heap s) None None xs) as [[[h1 p1] b1]|], (pset W (s_var t) (s_heap t) None None xs) as [[[t1 q1] c1]|]; try contradiction; try exact Logic.I.
  destruct Q as (R1 & O1 & P & B). destruct (ok_snoc R1 h1 t1 _ _ (ok_sim _ _ _ _ _ _ O1) (R_pbr R1 p1 q1 b1 c1 P B)) as (R2 & O2 & N).
  pose proof (ok_trans _ _ _ _ _ _ _ _ _ O1 O2) as O. exists R2. split; [exact O|]. apply vrel_upd; [exact (vrel_sub _ _ _ _ _ (ok_sub _ _ _ _ _ _ O) H)|now constructor].
Qed.
Lemma set_pbr_sim r xs R s t : ssim R s t -> V r -> (forall y, In y (flat_map pvars xs) -> V y) ->
  match set_pbr W s r xs, set_pbr W t r xs with Some s', Some t' => sok R s t s' t' | None, None => True | _, _ => False end.
Proof.
  intros S VR I. unfold set_pbr. pose proof (set_pbr_new_sim r xs R s t S I) as New. destruct (at_var_sim R s t r S VR) as [|n m d e E N]; [exact New|].
  destruct N as [| | |p q b c P B| | | | |]; try exact New. destruct S as [S H]. unfold zero_parts. rewrite (perm_sim R _ _ S p q P).
  assert ((match b with None => true | Some _ => false end) = match c with None => true | Some _ => false end) as -> by (now destruct B).
  destruct (_ && _)%bool; [exact New|]. pose proof (pset_sim W V _ _ xs R _ _ p q b c S H I P B) as Q.
  destruct (pset W (s_var s) (s_heap s) p b xs) as [[[h1 p1] b1]|], (pset W (s_var t) (s_heap t) q c xs) as [[[t1 q1] c1]|]; try contradiction; try exact Logic.I.
  destruct Q as (R1 & O1 & P1 & B1). exists R1. cbn [s_heap s_var]. split; [|exact (vrel_sub _ _ _ _ _ (ok_sub _ _ _ _ _ _ O1) H)].
  eapply ok_trans; [exact O1|]. apply ok_wr; [exact (ok_sim _ _ _ _ _ _ O1)|now apply (ok_sub _ _ _ _ _ _ O1)|now constructor].
Qed.
Lemma fresh_init_sim R s t x z d e (b : bool) : ssim R s t -> nrel R d e ->
  sok R s t (fresh (if b then with_var s x (Some (List.length (s_heap s))) else s) z d) (fresh (if b then with_var t x (Some (List.length (s_heap t))) else t) z e).
Proof.
  intros [S H] N. destruct (ok_snoc R _ _ d e S N) as (R' & O & K). pose proof (vrel_sub _ _ _ _ _ (ok_sub _ _ _ _ _ _ O) H) as H'.
  exists R'. destruct b; (split; [exact O|]); cbn [fresh with_var s_var s_heap]; repeat apply vrel_upd; auto; now constructor.
Qed.
Lemma bind_call_sim R s t z x k : ssim R s t -> V x -> sok R s t (bind_call s z x k) (bind_call t z x k).
Proof.
  intros S X. unfold bind_call.
  assert (Z : sok R s t (match br_step None k with None => with_var s z None | Some c => fresh (match k with BInit => with_var s x (Some (List.length (s_heap s))) | _ => s end) z (NBind c) end)
                        (match br_step None k with None => with_var t z None | Some c => fresh (match k with BInit => with_var t x (Some (List.length (s_heap t))) | _ => t end) z (NBind c) end)).
  { destruct (br_step None k) as [c|]; [|apply sok_var; [exact S|constructor]]. pose proof (fresh_init_sim R s t x z (NBind c) (NBind c) (match k with BInit => true | _ => false end) S (R_bind R c)) as Q. now destruct k. }
  destruct (at_var_sim R s t x S X) as [|n m d e E N]; [exact Z|]. destruct N as [|c| | | | | | |]; try exact Z.
  destruct (br_step (Some c) k) as [c'|]; [apply sok_node_var; auto; now constructor|apply sok_var; [exact S|now constructor]].
Qed.
Lemma target_call_sim R s t z x k : ssim R s t -> V x -> sok R s t (target_call s z x k) (target_call t z x k).
Proof.
  intros S X. unfold target_call.
  assert (Z : sok R s t (match tr_step None k with None => with_var s z None | Some c => fresh (match k with TInit => with_var s x (Some (List.length (s_heap s))) | _ => s end) z (NTr c) end)
                        (match tr_step None k with None => with_var t z None | Some c => fresh (match k with TInit => with_var t x (Some (List.length (s_heap t))) | _ => t end) z (NTr c) end)).
  { destruct (tr_step None k) as [c|]; [|apply sok_var; [exact S|constructor]]. pose proof (fresh_init_sim R s t x z (NTr c) (NTr c) (match k with TInit => true | _ => false end) S (R_tr R c)) as Q. now destruct k. }
  destruct (at_var_sim R s t x S X) as [|n m d e E N]; [exact Z|]. destruct N as [| | | | |c| | |]; try exact Z.
  destruct (tr_step (Some c) k) as [c'|]; [apply sok_node_var; auto; now constructor|apply sok_var; [exact S|now constructor]].
Qed.
Lemma targs_sim R s t xs : ssim R s t -> (forall y, In y (flat_map tvars xs) -> V y) -> Forall2 (orel R) (map (targ_ref s) xs) (map (targ_ref t) xs).
Proof.
  intros [S H]. induction xs as [|x xs IH]; intros I; cbn [map]; [constructor|]. constructor; [|apply IH; intros y Y; apply I; apply in_or_app; now right].
  destruct x as [x|]; cbn [targ_ref]; [|constructor]. apply H, I. cbn. now left.
Qed.
Lemma step_sim c R s t : ssim R s t -> (forall x, In x (vars c) -> V x) ->
  match step W s c, step W t c with Some s', Some t' => sok R s t s' t' | None, None => True | _, _ => False end.
Proof.
  intros S I. pose proof S as [HS HV].
  assert (A : forall x, In x (vars c) -> arel R (at_var s x) (at_var t x)) by (intros x X; apply at_var_sim; auto).
  assert (P : forall x, In x (vars c) -> orel R (s_var s x) (s_var t x)) by auto.
  destruct c; cbn [step vars] in *.
  - apply sok_var; [exact S|constructor].
  - apply sok_var; [exact S|auto with datatypes].
  - apply sok_fresh; [exact S|constructor].
  - destruct (A x ltac:(auto with datatypes)) as [|n m d e E N]; [apply sok_var; [exact S|constructor]|]. destruct N; try (apply sok_var; [exact S|constructor]). apply sok_node_var; auto; now constructor.
  - apply sok_fresh; [exact S|constructor].
  - apply bind_call_sim; [exact S|auto with datatypes].
  - apply sok_fresh; [exact S|repeat constructor].
  - destruct (accepted_sim R s t y S ltac:(auto with datatypes)) as [|n m E]; [now apply sok_refl|]. apply on_stack_sim; [exact S|auto with datatypes|]. intros. constructor. apply F2_app; auto.
  - destruct (A x ltac:(auto with datatypes)) as [|n m d e E N]; [apply sok_var; [exact S|constructor]|]. destruct N; try (apply sok_var; [exact S|constructor]).
    apply sok_node_var; auto; [constructor; now apply F2_pop|now apply F2_last].
  - apply sok_var; [exact S|]. destruct (A x ltac:(auto with datatypes)) as [|n m d e E N]; [constructor|]. destruct N; try constructor; auto. now apply F2_nth.
  - destruct (accepted_sim R s t y S ltac:(auto with datatypes)) as [|n m E]; [now apply sok_refl|]. apply on_stack_sim; [exact S|auto with datatypes|]. intros. constructor. now apply F2_wr.
  - apply on_stack_sim; [exact S|auto with datatypes|]. intros. now constructor.
  - apply on_stack_sim; [exact S|auto with datatypes|]. intros. now constructor.
  - apply on_stack_sim; [exact S|auto with datatypes|]. intros. now constructor.
  - pose proof (bval_sim R V _ _ b HV (fun x X => I x (or_intror (or_intror X)))) as B. destruct B as [|q q' B]; [apply sok_var; [exact S|constructor]|].
    rewrite (perm_sim R _ _ HS _ _ (P p ltac:(auto with datatypes))). destruct (perm_valid _); [|apply sok_var; [exact S|constructor]].
    apply sok_fresh; [exact S|]. constructor; [auto with datatypes|now constructor].
  - apply set_pbr_sim; [exact S|auto with datatypes|auto with datatypes].
  - apply sok_fresh; [exact S|repeat constructor].
  - destruct (A l ltac:(auto with datatypes)) as [|n m d e E N]; [now apply sok_refl|]. destruct N as [| | | |ks js F| | | |]; try now apply sok_refl.
    pose proof (push_pbrs_sim W V _ _ xs R _ _ ks js HS HV (fun x X => I x (or_intror X)) F) as Q.
    destruct (push_pbrs W (s_var s) (s_heap s) ks xs) as [[h1 k]|], (push_pbrs W (s_var t) (s_heap t) js xs) as [[t1 k']|]; try contradiction; try exact Logic.I.
    destruct Q as (R1 & O1 & F1). exists R1. cbn [s_heap s_var]. split; [|exact (vrel_sub _ _ _ _ _ (ok_sub _ _ _ _ _ _ O1) HV)].
    eapply ok_trans; [exact O1|]. apply ok_wr; [exact (ok_sim _ _ _ _ _ _ O1)|now apply (ok_sub _ _ _ _ _ _ O1)|now constructor].
  - destruct (A l ltac:(auto with datatypes)) as [|n m d e E N]; [apply sok_var; [exact S|constructor]|]. destruct N; try (apply sok_var; [exact S|constructor]).
    apply sok_node_var; auto; [constructor; now apply F2_pop|now apply F2_last].
  - apply sok_var; [exact S|]. apply F2_nth. apply (of_sim R s t l S). auto with datatypes.
  - apply sok_fresh; [exact S|constructor].
  - apply target_call_sim; [exact S|auto with datatypes].
  - apply sok_fresh; [exact S|repeat constructor].
  - apply on_trs_sim; [exact S|auto with datatypes|]. intros b ks js F. constructor. apply push_many_sim; auto. apply targs_sim; auto with datatypes.
  - destruct (A t0 ltac:(auto with datatypes)) as [|n m d e E N]; [apply sok_var; [exact S|constructor]|]. destruct N; try (apply sok_var; [exact S|constructor]).
    apply sok_node_var; auto; [constructor; now apply F2_pop|now apply F2_last].
  - apply sok_var; [exact S|]. apply F2_nth. apply (of_sim R s t t0 S). auto with datatypes.
  - apply on_trs_sim; [exact S|auto with datatypes|]. intros. now constructor.
  - pose proof (sets_new_sim i xs R s t S (fun x X => I x (or_intror X))) as Z. destruct (A i ltac:(auto with datatypes)) as [|n m d e E N]; [exact Z|].
    destruct N; try exact Z. apply sets_sim; auto with datatypes.
  - destruct (parseInstruction W raw) as [| |[a|]]; [exact Logic.I|now apply sok_refl| |now apply sok_refl].
    pose proof (alloc_ins_sim a _ _ R HS) as Q. destruct (alloc_ins (s_heap s) a) as [h1 n], (alloc_ins (s_heap t) a) as [t1 m]. destruct Q as (R1 & O1 & N).
    exists R1. split; [exact O1|]. apply vrel_upd; [exact (vrel_sub _ _ _ _ _ (ok_sub _ _ _ _ _ _ O1) HV)|now constructor].
  - apply sok_var; [exact S|]. destruct (A i ltac:(auto with datatypes)) as [|n m d e E N]; [constructor|]. destruct N; constructor; auto.
  - apply sok_var; [exact S|]. destruct (A i ltac:(auto with datatypes)) as [|n m d e E N]; [constructor|]. destruct N; constructor; auto.
  - apply sok_fresh; [exact S|repeat constructor].
  - destruct (A l ltac:(auto with datatypes)) as [|n m d e E N]; [now apply sok_refl|]. destruct N as [| | | | | | | |ks js F]; try now apply sok_refl.
    pose proof (push_inss_sim W V _ _ xs R _ _ ks js HS HV (fun x X => I x (or_intror X)) F) as Q.
    destruct (push_inss W (s_var s) (s_heap s) ks xs) as [[h1 k]|], (push_inss W (s_var t) (s_heap t) js xs) as [[t1 k']|]; try contradiction; try exact Logic.I.
    destruct Q as (R1 & O1 & F1). exists R1. cbn [s_heap s_var]. split; [|exact (vrel_sub _ _ _ _ _ (ok_sub _ _ _ _ _ _ O1) HV)].
    eapply ok_trans; [exact O1|]. apply ok_wr; [exact (ok_sim _ _ _ _ _ _ O1)|now apply (ok_sub _ _ _ _ _ _ O1)|now constructor].
  - destruct (A l ltac:(auto with datatypes)) as [|n m d e E N]; [apply sok_var; [exact S|constructor]|]. destruct N; try (apply sok_var; [exact S|constructor]).
    apply sok_node_var; auto; [constructor; now apply F2_pop|now apply F2_last].
  - apply sok_var; [exact S|]. apply F2_nth. apply (of_sim R s t l S). auto with datatypes.
Qed.
End Step.
