(* Lemmas for C136: the members of lists of permission-bind rules stay valid. *)
From Coq Require Import String Ascii List PeanoNat NArith ZArith Bool Lia.
From Verif Require Import GoStr Shifty MMisc MKw MRights MLists MRule MConv MTree MHeap MAci SAci PAci MWhole SWhole PTree PWhole.
Import ListNotations.
Open Scope string_scope.

(* a permission-bind rule with a permission and a bind rule *)
Definition full (h : heap) (k : nat) : Prop :=
  exists p b d v, nth_error h k = Some (NPbr (Some p) (Some b)) /\ nth_error h p = Some (NPerm d v).
Definition inv (h : heap) : Prop := forall n ks k, nth_error h n = Some (NPbrs ks) -> In k ks -> full h k.
(* what may be written over an object *)
Definition fits (h : heap) (d e : node) : Prop :=
  match d with
  | NPerm _ _ => exists a v, e = NPerm a v
  | NPbr (Some _) (Some _) => exists p b a v, e = NPbr (Some p) (Some b) /\ nth_error h p = Some (NPerm a v)
  | _ => True
  end.
Lemma full_valid h k r : full h k -> pbr_at h k = Some r -> pbr_valid (Some r) = true.
Proof.
  intros (p & b & d & v & E & P) H. unfold pbr_at in H. rewrite E in H. destruct (bctx_at h b) as [c|]; [|discriminate]. injection H as <-.
  unfold perm_at, rd. rewrite P. reflexivity.
Qed.
Lemma valid_full h k r : pbr_at h k = Some r -> pbr_valid (Some r) = true -> full h k.
Proof.
  intros H V. unfold pbr_at in H. destruct (nth_error h k) as [d|] eqn:E; [|discriminate]. destruct d as [| | |p b| | | | |]; try discriminate.
  destruct b as [b|]; [|injection H as <-; unfold pbr_valid in V; cbn in V; rewrite andb_true_r, andb_false_r in V; now destruct (perm_is_zero _)].
  destruct (bctx_at h b) as [c|]; [|discriminate]. injection H as <-. unfold pbr_valid in V. cbn in V. rewrite andb_false_r, andb_true_r in V.
  unfold perm_at, rd in V. destruct p as [p|]; [|discriminate]. destruct (nth_error h p) as [d|] eqn:P; [|discriminate]. destruct d; try discriminate. exists p, b. eauto.
Qed.
Lemma full_grown h h' k : grown h h' -> full h k -> full h' k.
Proof.
  intros G (p & b & d & v & E & P). exists p, b, d, v. pose proof (nth_lt _ _ _ E). pose proof (nth_lt _ _ _ P). split; rewrite (grown_old h h'); assumption.
Qed.
Lemma full_wr h n d e k : nth_error h n = Some d -> fits h d e -> full h k -> full (wr h n e) k.
Proof.
  intros E F (p & b & a & v & K & P). pose proof (nth_lt _ _ _ E) as L.
  assert (PP : forall p a v, nth_error h p = Some (NPerm a v) -> exists a' v', nth_error (wr h n e) p = Some (NPerm a' v')).
  { intros q a0 v0 Q. destruct (Nat.eq_dec q n) as [->|N]; [|rewrite wr_other by exact N; eauto]. rewrite E in Q. injection Q as ->. destruct F as (a' & v' & ->). rewrite wr_same by exact L. eauto. }
  destruct (Nat.eq_dec k n) as [->|N].
  - rewrite E in K. injection K as ->. destruct F as (p' & b' & a' & v' & -> & P'). destruct (PP _ _ _ P') as (a2 & v2 & Q). exists p', b', a2, v2. rewrite wr_same by exact L. auto.
  - destruct (PP _ _ _ P) as (a2 & v2 & Q). exists p, b, a2, v2. rewrite wr_other by exact N. auto.
Qed.
Lemma inv_wr h n d e : nth_error h n = Some d -> fits h d e -> inv h -> (forall ks, e = NPbrs ks -> forall k, In k ks -> full h k) -> inv (wr h n e).
Proof.
  intros E F I K m ks k M J. apply (full_wr h n d e); [exact E|exact F|]. destruct (Nat.eq_dec m n) as [->|N].
  - rewrite wr_same in M by (now apply nth_lt in E). injection M as ->. eauto.
  - rewrite wr_other in M by exact N. eauto.
Qed.
(* growth without lists of permission-bind rules that have members *)
Definition mild (d : node) : Prop := match d with NPbrs ks => ks = [] | _ => True end.
Definition mildly (h h' : heap) : Prop := exists e, h' = (h ++ e)%list /\ Forall mild e.
Lemma mildly_refl h : mildly h h.
Proof. exists []. rewrite app_nil_r. auto. Qed.
Lemma mildly_trans a b c : mildly a b -> mildly b c -> mildly a c.
Proof. intros (e & -> & E) (f & -> & F). exists (e ++ f)%list. rewrite app_assoc. split; [reflexivity|]. apply Forall_app. auto. Qed.
Lemma mildly_snoc h d : mild d -> mildly h (h ++ [d])%list.
Proof. intros M. exists [d]. auto. Qed.
Lemma mild_inv h h' : mildly h h' -> inv h -> inv h'.
Proof.
  intros (e & -> & F) I n ks k E J. destruct (Nat.lt_ge_cases n (List.length h)) as [L|L].
  - rewrite nth_error_app1 in E by exact L. destruct (I _ _ _ E J) as (p & b & a & v & K & P). exists p, b, a, v.
    rewrite !nth_error_app1 by (apply nth_lt in K; apply nth_lt in P; assumption). auto.
  - rewrite nth_error_app2 in E by exact L. apply nth_error_In in E. rewrite Forall_forall in F. apply F in E. cbn in E. subst. destruct J.
Qed.
Lemma mild_tree : forall t h, mildly h (fst (alloc_tree h t)).
Proof.
  induction t as [c|w p f d ts IH] using tree_ind'; intros h; [now apply mildly_snoc|]. rewrite alloc_stk.
  assert (X : forall h, mildly h (fst (alloc_trees h ts))).
  { clear h. induction IH as [|t ts Ht IHt IH']; intros h; [apply mildly_refl|]. cbn [alloc_trees]. specialize (Ht h). destruct (alloc_tree h t) as [h1 k1]. specialize (IH' h1).
    destruct (alloc_trees h1 ts) as [h2 ks]. eapply mildly_trans; eauto. }
  specialize (X h). destruct (alloc_trees h ts) as [h' ks]. eapply mildly_trans; [exact X|]. now apply mildly_snoc.
Qed.
Lemma mild_parts x h : let '(h', p, b) := alloc_parts h x in mildly h h' /\
  (pb_p x <> PNil -> exists q a v, p = Some q /\ nth_error h' q = Some (NPerm a v)) /\ (pb_b x <> None -> b <> None).
Proof.
  unfold alloc_parts. assert (P : let '(h1, p) := alloc_perm h (pb_p x) in mildly h h1 /\ (pb_p x <> PNil -> exists q a v, p = Some q /\ nth_error h1 q = Some (NPerm a v))).
  { destruct (pb_p x) as [|a v]; cbn [alloc_perm]; [split; [apply mildly_refl|now intros []]|]. split; [now apply mildly_snoc|]. intros _. exists (List.length h), a, v.
    split; [reflexivity|apply nth_snoc]. }
  destruct (alloc_perm h (pb_p x)) as [h1 p]. destruct P as [M1 P1]. destruct (pb_b x) as [c|]; [|split; [exact M1|split; [exact P1|now intros []]]].
  assert (B : mildly h1 (fst (alloc_bctx h1 c))).
  { destruct c as [[c|]|[t|]]; cbn [alloc_bctx]; try apply mildly_refl; [now apply mildly_snoc|]. pose proof (mild_tree t h1). now destruct (alloc_tree h1 t). }
  destruct (alloc_bctx h1 c) as [h2 r]. cbn in B. split; [eapply mildly_trans; eauto|]. split; [|discriminate]. intros N. destruct (P1 N) as (q & a & v & -> & Q). exists q, a, v.
  split; [reflexivity|]. destruct B as (e & -> & _). rewrite nth_error_app1 by (now apply nth_lt in Q). exact Q.
Qed.
Lemma mild_pbr x h : let '(h', n) := alloc_pbr h x in mildly h h' /\ (pbr_valid (Some x) = true -> full h' n).
Proof.
  unfold alloc_pbr. pose proof (mild_parts x h) as P. destruct (alloc_parts h x) as [[h1 p] b]. destruct P as (M & P & B). split; [eapply mildly_trans; [exact M|now apply mildly_snoc]|].
  intros V. destruct x as [p0 b0]. unfold pbr_valid in V. cbn in *. destruct p0 as [|a v]; [now destruct b0|]. destruct b0 as [b0|]; [|discriminate].
  destruct P as (q & a' & v' & -> & Q); [discriminate|]. destruct b as [b|]; [|now destruct B]. exists q, b, a', v'. split; [apply nth_snoc|]. rewrite nth_error_app1 by (now apply nth_lt in Q). exact Q.
Qed.
Lemma full_mildly h h' k : mildly h h' -> full h k -> full h' k.
Proof.
  intros (e & -> & _) (p & b & d & v & E & P). exists p, b, d, v. rewrite !nth_error_app1 by (apply nth_lt in E; apply nth_lt in P; assumption). auto.
Qed.
Lemma mild_pbrs l : forall h, let '(h', ks) := alloc_pbrs h l in mildly h h' /\ (Forall (fun r => pbr_valid r = true) l -> forall k, In k ks -> full h' k).
Proof.
  induction l as [|[x|] l IH]; intros h; cbn [alloc_pbrs].
  - split; [apply mildly_refl|intros _ k []].
  - pose proof (mild_pbr x h) as P. destruct (alloc_pbr h x) as [h1 n]. destruct P as [M1 F1]. specialize (IH h1). destruct (alloc_pbrs h1 l) as [h2 ks]. destruct IH as [M2 F2].
    split; [eapply mildly_trans; eauto|]. intros F k [<-|I]; inversion F; subst; [|auto]. apply (full_mildly h1); auto.
  - specialize (IH h). destruct (alloc_pbrs h l) as [h2 ks]. destruct IH as [M2 F2]. split; [exact M2|]. intros F. inversion F; subst. auto.
Qed.
Lemma mild_trs l : forall h, mildly h (fst (alloc_trs h l)).
Proof.
  induction l as [|[c|] l IH]; intros h; cbn [alloc_trs]; [apply mildly_refl| |apply IH]. specialize (IH (h ++ [NTr c])%list). destruct (alloc_trs (h ++ [NTr c])%list l) as [h2 ks].
  cbn [fst] in *. eapply mildly_trans; [|exact IH]. apply mildly_snoc. exact Logic.I.
Qed.
Lemma inv_ins a h : inv h -> Forall (fun r => pbr_valid r = true) (i_pbrs a) -> inv (fst (alloc_ins h a)).
Proof.
  intros I F. unfold alloc_ins. pose proof (mild_trs (i_trs a) h) as T. destruct (alloc_trs h (i_trs a)) as [h1 ts]. pose proof (mild_pbrs (i_pbrs a) h1) as P.
  destruct (alloc_pbrs h1 (i_pbrs a)) as [h2 ps]. destruct P as [M K]. specialize (K F). cbn [fst] in *. assert (I2 : inv h2) by (apply (mild_inv h1); [exact M|]; now apply (mild_inv h)).
  set (k := List.length h2). change [NTrs false ts; NPbrs ps; NIns (i_label a) k (S k)] with ([NTrs false ts] ++ [NPbrs ps] ++ [NIns (i_label a) k (S k)])%list. rewrite !app_assoc.
  eapply mild_inv; [apply mildly_snoc; exact Logic.I|]. set (h3 := (h2 ++ [NTrs false ts])%list). assert (M3 : mildly h2 h3) by (now apply mildly_snoc).
  assert (I3 : inv h3) by (now apply (mild_inv h2)). intros n ks q E J. assert (Q : full h3 q -> full (h3 ++ [NPbrs ps])%list q).
  { intros (p & b & a' & v & X & Y). exists p, b, a', v. rewrite !nth_error_app1 by (apply nth_lt in X; apply nth_lt in Y; assumption). auto. }
  apply Q. destruct (Nat.lt_ge_cases n (List.length h3)) as [L|L].
  - rewrite nth_error_app1 in E by exact L. eauto.
  - rewrite nth_error_app2 in E by exact L. destruct (n - List.length h3)%nat as [|j]; cbn in E; [injection E as <-|now destruct j]. apply (full_mildly h2); auto.
Qed.
Section Prog.
Variable W : world.
Lemma parse_valid raw a : parseInstruction W raw = Gives (Some a) -> Forall (fun r => pbr_valid r = true) (i_pbrs a).
Proof.
  unfold parseInstruction. destruct (w_ins W (condenseWHSP raw)) as [x|]; [|discriminate]. destruct (processTRs W (ai_trs x)) as [[t okt]|]; [|discriminate].
  destruct (processPBRs W [] (ai_pbrs x)) as [[p okp]|]; [|discriminate]. cbn [ins_set ins_valid]. intros [= <-]. apply Forall_forall.
  assert (N : pl_inv W []) by (split; [easy|constructor]). enough (X : pl_inv W (fold_left (fun l r => pbrs_push1 W l (PLRule r)) p [])).
  { cbn. unfold setLabel. cbn. destruct (_ && _)%bool; cbn; apply X. }
  revert N. generalize (@nil pbr). induction p as [|r p IH]; intros l N; [exact N|]. cbn [fold_left]. apply IH. now apply (pl_push1_inv W l (PLRule r)).
Qed.
Lemma push_pbr_full h l m l' : push_pbr W h l m = Some l' -> (forall k, In k l -> full h k) -> forall k, In k l' -> full h k.
Proof.
  intros H F k I. unfold push_pbr in H. destruct m as [m|]; [|injection H as <-; auto]. destruct (all (map (pbr_at h) l)) as [vs|]; [|discriminate]. destruct (pbr_at h m) as [v|] eqn:E; [|discriminate].
  injection H as <-. unfold pbrs_policy in I. destruct (pbrs_contains _ _ _); [auto|]. destruct (pbr_valid (Some v)) eqn:V; [|auto]. apply in_app_iff in I as [I|[<-|[]]]; [auto|]. eapply valid_full; eauto.
Qed.
Lemma push_each_full h ms : forall l l', push_each W h l ms = Some l' -> (forall k, In k l -> full h k) -> forall k, In k l' -> full h k.
Proof.
  induction ms as [|m ms IH]; intros l l' H F; cbn [push_each] in H; [now injection H as <-|]. destruct (push_pbr W h l (Some m)) as [l1|] eqn:E; [|discriminate].
  apply (IH l1); [exact H|]. eapply push_pbr_full; eauto.
Qed.
Lemma push_pbrs_full v : forall xs h l h' l', (forall k, In k l -> full h k) -> inv h -> push_pbrs W v h l xs = Some (h', l') -> inv h' /\ mildly h h' /\ forall k, In k l' -> full h' k.
Proof.
  induction xs as [|x xs IH]; intros h l h' l' F I H; cbn [push_pbrs] in H; [injection H as <- <-; split; [exact I|split; [apply mildly_refl|exact F]]|].
  destruct x as [s|r|].
  - destruct (parsePBR W s) as [| |[x|]]; [discriminate|injection H as <- <-; split; [exact I|split; [apply mildly_refl|exact F]]| |eauto].
    pose proof (mild_pbr x h) as P. destruct (alloc_pbr h x) as [h1 m]. destruct P as [M _]. destruct (push_pbr W h1 l (Some m)) as [l1|] eqn:E; [|discriminate].
    destruct (IH h1 l1 h' l') as (I' & M' & F'); [|now apply (mild_inv h)|exact H|split; [exact I'|split; [eapply mildly_trans; eauto|exact F']]].
    eapply push_pbr_full; [exact E|]. intros k K. apply (full_mildly h); auto.
  - destruct (push_pbr W h l (v r)) as [l1|] eqn:E; [|discriminate]. apply (IH h l1); [|exact I|exact H]. eapply push_pbr_full; eauto.
  - eauto.
Qed.
Lemma push_inss_stay v : forall xs h l h' l', inv h -> closed h -> push_inss W v h l xs = Some (h', l') -> inv h'.
Proof.
  induction xs as [|x xs IH]; intros h l h' l' I C H; cbn [push_inss] in H; [now injection H as <- <-|]. destruct x as [s|r|].
  - destruct (parseInstruction W s) as [| |[x|]] eqn:P; [discriminate|eauto| |eauto]. apply parse_valid in P. pose proof (inv_ins x h I P) as I1. pose proof (alloc_ins_ok x h C) as A.
    destruct (alloc_ins h x) as [h1 m]. destruct A as (G & _). destruct (push_ins W h1 l (Some m)) as [l1|]; [|discriminate]. apply (IH h1 l1 h' l'); [exact I1|apply G|exact H].
  - destruct (push_ins W h l (v r)) as [l1|]; [|discriminate]. eauto.
  - eauto.
Qed.
Lemma pset_full v : forall xs h p b h' p' b', pset W v h p b xs = Some (h', p', b') -> mildly h h' /\
  ((exists q a u, p = Some q /\ nth_error h q = Some (NPerm a u)) -> b <> None -> (exists q a u, p' = Some q /\ nth_error h' q = Some (NPerm a u)) /\ b' <> None).
Proof.
  induction xs as [|x xs IH]; intros h p b h' p' b' H; cbn [pset] in H; [injection H as <- <- <-; split; [apply mildly_refl|auto]|].
  assert (Z : Some (h, p, b) = Some (h', p', b') -> mildly h h' /\
    ((exists q a u, p = Some q /\ nth_error h q = Some (NPerm a u)) -> b <> None -> (exists q a u, p' = Some q /\ nth_error h' q = Some (NPerm a u)) /\ b' <> None))
    by (intros [= <- <- <-]; split; [apply mildly_refl|auto]).
  destruct x as [s|y|a|].
  - destruct (parsePBR W s) as [| |[x|]] eqn:P; [discriminate|auto| |auto]. apply parsePBR_valid in P. pose proof (mild_parts x h) as A. destruct (alloc_parts h x) as [[h1 p1] b1].
    destruct A as (M & Q & B). destruct (IH h1 p1 b1 h' p' b' H) as [M' F]. split; [eapply mildly_trans; eauto|]. intros _ _. unfold pbr_valid in P. destruct x as [[|a v0] [c|]]; cbn in *; try discriminate.
    apply F; [now apply Q|now apply B].
  - destruct (perm_valid (perm_at h (v y))) eqn:V; [|auto]. destruct (IH _ _ _ _ _ _ H) as [M F]. split; [exact M|]. intros _ B. apply F; [|exact B].
    unfold perm_at, rd in V. destruct (v y) as [q|]; [|discriminate]. destruct (nth_error h q) as [d|] eqn:E; [|discriminate]. destruct d; try discriminate. eauto.
  - destruct (bval v a) as [r|]; [|now apply IH]. destruct (bref_valid h r); [|auto]. destruct (IH _ _ _ _ _ _ H) as [M F]. split; [exact M|]. intros P _. now apply F.
  - now apply IH.
Qed.
Lemma set1_inv s n x s' : inv (s_heap s) -> set1 W s n x = Some s' -> inv (s_heap s').
Proof.
  intros I H. unfold set1 in H. destruct (nth_error (s_heap s) n) as [d|] eqn:E; [|now injection H as <-]. destruct d as [| | | | | | |a t p|]; try now injection H as <-.
  destruct x as [y|u|x|r|l|]; try now injection H as <-.
  - injection H as <-. cbn. eapply inv_wr; [exact E|exact Logic.I|exact I|discriminate].
  - destruct (nth_error (s_heap s) t) as [d|] eqn:T; [|now injection H as <-]. destruct d; injection H as <-; auto. cbn. eapply inv_wr; [exact T|exact Logic.I|exact I|discriminate].
  - destruct (nth_error (s_heap s) t) as [d|] eqn:T; [|now injection H as <-]. destruct d; injection H as <-; auto. cbn. eapply inv_wr; [exact T|exact Logic.I|exact I|discriminate].
  - destruct (nth_error (s_heap s) p) as [d|] eqn:T; [|now injection H as <-]. destruct d as [| | | |ks| | | |]; try now injection H as <-. destruct (push_pbr W (s_heap s) ks (s_var s r)) as [ks'|] eqn:Q; [|discriminate].
    injection H as <-. cbn. eapply inv_wr; [exact T|exact Logic.I|exact I|]. intros q [= <-]. eapply push_pbr_full; [exact Q|]. eauto.
  - destruct (nth_error (s_heap s) p) as [d|] eqn:T; [|now injection H as <-]. destruct d as [| | | |ks| | | |]; try now injection H as <-. destruct (push_each W (s_heap s) ks (pbrs_of s l)) as [ks'|] eqn:Q; [|discriminate].
    injection H as <-. cbn. eapply inv_wr; [exact T|exact Logic.I|exact I|]. intros q [= <-]. eapply push_each_full; [exact Q|]. eauto.
Qed.
Lemma sets_inv : forall xs s n s', inv (s_heap s) -> sets W s n xs = Some s' -> inv (s_heap s').
Proof.
  induction xs as [|x xs IH]; intros s n s' I H; cbn [sets] in H; [now injection H as <-|]. destruct (set1 W s n x) as [s1|] eqn:E; [|discriminate]. apply (IH s1 n); [|exact H]. eapply set1_inv; eauto.
Qed.
Lemma on_stack_inv s x f : (forall w p b d ks, match f w p b d ks with NStk _ _ _ _ _ => True | _ => False end) -> inv (s_heap s) -> inv (s_heap (on_stack s x f)).
Proof.
  intros F I. unfold on_stack. destruct (at_var s x) as [[n d]|] eqn:A; [|exact I]. destruct d as [| |w p b d ks| | | | | |]; try exact I. apply at_var_some in A as [_ E].
  cbn. eapply inv_wr; [exact E|exact Logic.I|exact I|]. intros q Q. specialize (F w p b d ks). rewrite Q in F. destruct F.
Qed.
Lemma step_inv s c s' : wf s -> inv (s_heap s) -> step W s c = Some s' -> inv (s_heap s').
Proof.
  intros [C V] I H.
  assert (SN : forall d, mild d -> inv (s_heap s ++ [d])%list) by (intros d M; apply (mild_inv (s_heap s)); [now apply mildly_snoc|exact I]).
  destruct c as [x|x y|x al xs|z x on xs|x c|z x k|x w pad|x y|z x|z x i|x y i|x b|x b|x b|r p b|r xs|l|l xs|r l|r l i|x c|z x m|t|t xs|x t|x t i|t b|i xs|i raw|t i|l i|l|l xs|i l|i l k];
    cbn [step] in H; try (injection H as <-); try exact I; try (apply SN; exact Logic.I); try (apply SN; reflexivity); try (apply on_stack_inv; [intros; exact Logic.I|exact I]).
  - destruct (at_var s x) as [[n d]|] eqn:A; [|now injection H as <-]. destruct d as [a v| | | | | | | |]; injection H as <-; try exact I. apply at_var_some in A as [_ E].
    cbn. eapply inv_wr; [exact E|cbn; eauto|exact I|discriminate].
  - unfold bind_call. assert (N : inv (s_heap (match br_step None k with None => with_var s z None | Some c => fresh (match k with BInit => with_var s x (Some (List.length (s_heap s))) | _ => s end) z (NBind c) end))).
    { destruct (br_step None k) as [c|]; [|exact I]. destruct k; apply SN; exact Logic.I. }
    destruct (at_var s x) as [[n d]|] eqn:A; [|exact N]. destruct d as [|c| | | | | | |]; try exact N. apply at_var_some in A as [_ E].
    destruct (br_step (Some c) k); [|exact I]. cbn. eapply inv_wr; [exact E|exact Logic.I|exact I|discriminate].
  - destruct (accepted s y); [|exact I]. apply on_stack_inv; [intros; exact Logic.I|exact I].
  - destruct (at_var s x) as [[n d]|] eqn:A; [|exact I]. destruct d as [| |w p f d ks| | | | | |]; try exact I. apply at_var_some in A as [_ E]. cbn. eapply inv_wr; [exact E|exact Logic.I|exact I|discriminate].
  - destruct (accepted s y); [|exact I]. apply on_stack_inv; [intros; exact Logic.I|exact I].
  - destruct (bval (s_var s) b); [|exact I]. destruct (perm_valid _); [|exact I]. apply SN; exact Logic.I.
  - unfold set_pbr in H. assert (N : match pset W (s_var s) (s_heap s) None None xs with
      | Some (h, p, b) => Some (MkS (h ++ [NPbr p b])%list (upd (s_var s) r (Some (List.length h)))) | None => None end = Some s' -> inv (s_heap s')).
    { intros E. destruct (pset W (s_var s) (s_heap s) None None xs) as [[[h p] b]|] eqn:P; [|discriminate]. injection E as <-. apply pset_full in P as [M _]. cbn.
      apply (mild_inv h); [apply mildly_snoc; exact Logic.I|]. now apply (mild_inv (s_heap s)). }
    destruct (at_var s r) as [[n d]|] eqn:A; [|now apply N]. destruct d as [| | |p b| | | | |]; try now apply N. destruct (zero_parts _ _ _); [now apply N|]. clear N. apply at_var_some in A as [_ E].
    destruct (pset W (s_var s) (s_heap s) p b xs) as [[[h p'] b']|] eqn:P; [|discriminate]. injection H as <-. apply pset_full in P as [M F]. cbn.
    assert (I1 : inv h) by (now apply (mild_inv (s_heap s))). assert (E1 : nth_error h n = Some (NPbr p b)) by (destruct M as (e & -> & _); rewrite nth_error_app1 by (now apply nth_lt in E); exact E).
    destruct p as [p|]; [destruct b as [b|]|]; try (eapply inv_wr; [exact E1|exact Logic.I|exact I1|discriminate]).
    (* a rule that is whole stays whole; one whose permission is not on the heap is in no list *)
    destruct (nth_error (s_heap s) p) as [[a v| | | | | | | |]|] eqn:Q.
    1: { destruct F as [(q & a' & v' & -> & Q') B]; [eauto|discriminate|]. destruct b' as [b'|]; [|now destruct B]. eapply inv_wr; [exact E1|exists q, b', a', v'; auto|exact I1|discriminate]. }
    all: intros m kz k J K; destruct (Nat.eq_dec m n) as [->|NE]; [rewrite wr_same in J by (now apply nth_lt in E1); discriminate|]; rewrite wr_other in J by exact NE;
      destruct (I1 _ _ _ J K) as (p1 & b1 & a1 & v1 & K1 & P1);
      assert (KN : k <> n) by (intros ->; rewrite E1 in K1; injection K1 as <- <-; destruct M as (e & -> & _);
        rewrite nth_error_app1 in P1 by (specialize (C _ _ p E ltac:(now left)); exact C); congruence);
      exists p1, b1, a1, v1; rewrite wr_other by exact KN; split; [exact K1|]; rewrite wr_other; [exact P1|intros ->; congruence].
  - destruct (at_var s l) as [[n d]|] eqn:A; [|now injection H as <-]. destruct d as [| | | |ks| | | |]; try now injection H as <-. apply at_var_some in A as [_ E].
    destruct (push_pbrs W (s_var s) (s_heap s) ks xs) as [[h ks']|] eqn:P; [|discriminate]. injection H as <-. cbn.
    destruct (push_pbrs_full _ _ _ _ _ _ (fun k K => I _ _ _ E K) I P) as (I1 & M & F).
    assert (E1 : nth_error h n = Some (NPbrs ks)) by (destruct M as (e & -> & _); rewrite nth_error_app1 by (now apply nth_lt in E); exact E).
    eapply inv_wr; [exact E1|exact Logic.I|exact I1|]. intros q [= <-]. exact F.
  - destruct (at_var s l) as [[n d]|] eqn:A; [|exact I]. destruct d as [| | | |ks| | | |]; try exact I. apply at_var_some in A as [_ E]. cbn. eapply inv_wr; [exact E|exact Logic.I|exact I|].
    intros q [= <-] k K. apply removelast_in in K. eauto.
  - unfold target_call. assert (N : inv (s_heap (match tr_step None m with None => with_var s z None | Some c => fresh (match m with TInit => with_var s x (Some (List.length (s_heap s))) | _ => s end) z (NTr c) end))).
    { destruct (tr_step None m) as [c|]; [|exact I]. destruct m; apply SN; exact Logic.I. }
    destruct (at_var s x) as [[n d]|] eqn:A; [|exact N]. destruct d as [| | | | |c| | |]; try exact N. apply at_var_some in A as [_ E].
    destruct (tr_step (Some c) m); [|exact I]. cbn. eapply inv_wr; [exact E|exact Logic.I|exact I|discriminate].
  - unfold on_trs. destruct (at_var s t) as [[n d]|] eqn:A; [|exact I]. destruct d as [| | | | | |b ks| |]; try exact I. apply at_var_some in A as [_ E]. cbn. eapply inv_wr; [exact E|exact Logic.I|exact I|discriminate].
  - destruct (at_var s t) as [[n d]|] eqn:A; [|exact I]. destruct d as [| | | | | |b ks| |]; try exact I. apply at_var_some in A as [_ E]. cbn. eapply inv_wr; [exact E|exact Logic.I|exact I|discriminate].
  - unfold on_trs. destruct (at_var s t) as [[n d]|] eqn:A; [|exact I]. destruct d as [| | | | | |q ks| |]; try exact I. apply at_var_some in A as [_ E]. cbn. eapply inv_wr; [exact E|exact Logic.I|exact I|discriminate].
  - assert (N : sets W (new_ins s i) (S (S (List.length (s_heap s)))) xs = Some s' -> inv (s_heap s')).
    { intros E. eapply sets_inv; [|exact E]. cbn. apply (mild_inv (s_heap s)); [|exact I]. eexists. split; [reflexivity|]. repeat constructor. }
    destruct (at_var s i) as [[n d]|] eqn:A; [|now apply N]. destruct d; try now apply N. eapply sets_inv; eauto.
  - destruct (parseInstruction W raw) as [| |[a|]] eqn:P; [discriminate|now injection H as <-| |now injection H as <-]. apply parse_valid in P. pose proof (inv_ins a (s_heap s) I P) as I1.
    destruct (alloc_ins (s_heap s) a) as [h n]. injection H as <-. exact I1.
  - destruct (at_var s l) as [[n d]|] eqn:A; [|now injection H as <-]. destruct d as [| | | | | | | |ks]; try now injection H as <-. apply at_var_some in A as [_ E].
    destruct (push_inss W (s_var s) (s_heap s) ks xs) as [[h ks']|] eqn:P; [|discriminate]. injection H as <-. cbn. pose proof (push_inss_stay _ _ _ _ _ _ I C P) as I1.
    assert (M : forall k, In k ks -> (k < List.length (s_heap s))%nat) by (intros k K; apply (C _ _ _ E K)). destruct (push_inss_ok W _ _ _ _ _ _ C V M P) as [G _].
    assert (E1 : nth_error h n = Some (NInss ks)) by (rewrite (grown_old _ _ _ G) by (now apply nth_lt in E); exact E). eapply inv_wr; [exact E1|exact Logic.I|exact I1|discriminate].
  - destruct (at_var s l) as [[n d]|] eqn:A; [|exact I]. destruct d as [| | | | | | | |ks]; try exact I. apply at_var_some in A as [_ E]. cbn. eapply inv_wr; [exact E|exact Logic.I|exact I|discriminate].
Qed.
Lemma run_inv p : forall s s', wf s -> inv (s_heap s) -> run W s p = Some s' -> inv (s_heap s').
Proof.
  induction p as [|c p IH]; intros s s' Wf I H; cbn [run] in H; [now injection H as <-|]. destruct (step W s c) as [s1|] eqn:E; [|discriminate].
  apply (IH s1); [apply (step_keeps W s c s1 Wf E)|eapply step_inv; eauto|exact H].
Qed.
End Prog.
