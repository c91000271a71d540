(* C95-C97: bind rules as references. *)
From Coq Require Import String Ascii List PeanoNat NArith ZArith Bool Lia.
From Verif Require Import GoStr MKw MRule MTree TTree MGraph SGraph.
Import ListNotations.
Open Scope string_scope.

Scheme shows_mut := Minimality for shows Sort Prop with showss_mut := Minimality for showss Sort Prop.
Combined Scheme shows_both from shows_mut, showss_mut.

Lemma set_at_length {A} (l : list A) i a : List.length (set_at l i a) = List.length l.
Proof. revert i. induction l as [|b l IH]; intros [|i]; cbn; auto. Qed.
Lemma set_at_same {A} (l : list A) i a : (i < List.length l)%nat -> nth_error (set_at l i a) i = Some a.
Proof. revert i. induction l as [|b l IH]; intros [|i] H; cbn in *; try lia; [reflexivity|]. apply IH. lia. Qed.
Lemma set_at_other {A} (l : list A) i j a : i <> j -> nth_error (set_at l i a) j = nth_error l j.
Proof. revert i j. induction l as [|b l IH]; intros [|i] [|j] H; cbn; try reflexivity; [now destruct H|]. apply IH. congruence. Qed.
Lemma set_at_in {A} (l : list A) i a x : In x (set_at l i a) -> x = a \/ In x l.
Proof. revert i. induction l as [|b l IH]; intros [|i] H; cbn in *; [tauto|tauto|destruct H; auto|]. destruct H as [H|H]; [auto|]. destruct (IH i H); auto. Qed.
Lemma nth_in {A} (l : list A) i a : nth_error l i = Some a -> In a l.
Proof. apply nth_error_In. Qed.
Lemma nth_lt {A} (l : list A) i a : nth_error l i = Some a -> (i < List.length l)%nat.
Proof. intros H. apply nth_error_Some. congruence. Qed.
Lemma removelast_in {A} (l : list A) x : In x (removelast l) -> In x l.
Proof. induction l as [|a l IH]; [easy|]. cbn [removelast]. destruct l as [|b l]; [easy|]. intros [<-|H]; [now left|right; now apply IH]. Qed.

(* ---- what is shown is determined, and finite ---- *)
Lemma shows_det h : (forall n t, shows h n t -> forall u, shows h n u -> t = u) /\
                    (forall ks ts, showss h ks ts -> forall us, showss h ks us -> ts = us).
Proof.
  apply shows_both.
  - intros n c H u U. inversion U; subst; congruence.
  - intros n w p f d ks ts H _ IH u U. inversion U as [n' c' H'|n' w' p' f' d' ks' ts' H' S]; subst; rewrite H in H'; [discriminate|].
    injection H' as <- <- <- <- <-. f_equal. now apply IH.
  - intros us U. now inversion U.
  - intros k ks t ts _ IH _ IHs us U. inversion U; subst. f_equal; auto.
Qed.
Definition det h n t u A B := proj1 (shows_det h) n t A u B.
Lemma showss_length h ks ts : showss h ks ts -> List.length ks = List.length ts.
Proof. induction 1; cbn; auto. Qed.
Lemma showss_nth h ks ts i k : showss h ks ts -> nth_error ks i = Some k -> exists t, nth_error ts i = Some t /\ shows h k t.
Proof.
  intros S. revert i. induction S as [|k' ks t ts H S IH]; intros [|i] E; cbn in *; try discriminate E.
  - injection E as <-. eauto.
  - now apply IH.
Qed.
Lemma showss_in h ks ts k : showss h ks ts -> In k ks -> exists t, In t ts /\ shows h k t.
Proof. intros S I. apply In_nth_error in I as [i I]. destruct (showss_nth _ _ _ _ _ S I) as (t & T & U). exists t. split; [now apply nth_in in T|exact U]. Qed.
Lemma showss_map h ks : (forall k, In k ks -> exists t, shows h k t) -> exists ts, showss h ks ts.
Proof.
  induction ks as [|k ks IH]; intros H; [exists []; constructor|].
  destruct (H k (or_introl eq_refl)) as [t T]. destruct IH as [ts S]; [intros x I; apply H; now right|].
  exists (t :: ts). now constructor.
Qed.
Lemma showss_app h ks ts ls us : showss h ks ts -> showss h ls us -> showss h (ks ++ ls)%list (ts ++ us)%list.
Proof. induction 1; intros X; cbn [app]; [exact X|]. constructor; auto. Qed.
Lemma showss_change h h' ks ts : showss h ks ts -> (forall k t, In k ks -> shows h k t -> shows h' k t) -> showss h' ks ts.
Proof. induction 1 as [|k ks t ts H S IH]; intros F; constructor; [apply F; [now left|exact H]|apply IH; intros x u I; apply F; now right]. Qed.
Lemma showss_set h ks ts i k t : showss h ks ts -> shows h k t -> showss h (set_at ks i k) (set_at ts i t).
Proof. intros S. revert i. induction S as [|a ks b ts H S IH]; intros i T; [destruct i; constructor|]. destruct i; cbn [set_at]; constructor; auto. Qed.
Lemma showss_removelast h ks ts : showss h ks ts -> showss h (removelast ks) (removelast ts).
Proof. induction 1 as [|k ks t ts H S IH]; [constructor|]. cbn [removelast]. destruct S; [constructor|]. constructor; auto. Qed.

Fixpoint tsize (t : tree) : nat :=
  match t with Leaf _ => 1 | Stk _ _ _ _ ks => S (fold_right (fun k n => (tsize k + n)%nat) 0 ks) end.
Lemma tsize_in t ts : In t ts -> (tsize t <= fold_right (fun k n => (tsize k + n)%nat) 0 ts)%nat.
Proof. induction ts as [|u ts IH]; [easy|]. intros [<-|H]; cbn [fold_right]; [lia|]. apply IH in H. lia. Qed.
Lemma leads_shows h n m : leads h n m -> forall t, shows h n t -> exists u, shows h m u /\ (tsize u <= tsize t)%nat.
Proof.
  induction 1 as [n|n k m w p f d ks H I L IH]; intros t T; [eauto|].
  inversion T as [n' c' H'|n' w' p' f' d' ks' ts H' S]; subst; rewrite H in H'; [discriminate|]. injection H' as <- <- <- <- <-.
  destruct (showss_in _ _ _ _ S I) as (u & J & U). destruct (IH u U) as (v & V & Z). exists v. split; [exact V|].
  apply tsize_in in J. cbn [tsize]. lia.
Qed.
(* a stack that shows a tree is not inside itself *)
Lemma no_loop h n w p f d ks t : nth_error h n = Some (NStk w p f d ks) -> shows h n t ->
  forall k, In k ks -> ~ leads h k n.
Proof.
  intros H T k I L. assert (T' := T). inversion T' as [n' c' H'|n' w' p' f' d' ks' ts H' S]; subst; rewrite H in H'; [discriminate|].
  injection H' as <- <- <- <- <-. destruct (showss_in _ _ _ _ S I) as (u & J & U).
  destruct (leads_shows _ _ _ L u U) as (v & V & Z). assert (E := det _ _ _ _ T V). subst v.
  apply tsize_in in J. cbn [tsize] in Z. lia.
Qed.
Lemma leads_trans h a b c : leads h a b -> leads h b c -> leads h a c.
Proof. induction 1 as [|n k m w p f d ks H I L IH]; intros X; [exact X|]. econstructor; eauto. Qed.

(* ---- a change of one cell ---- *)
Lemma unchanged h h' a : (forall m, m <> a -> nth_error h' m = nth_error h m) ->
  forall n t, shows h n t -> ~ leads h n a -> shows h' n t.
Proof.
  intros E.
  enough (X : (forall n t, shows h n t -> ~ leads h n a -> shows h' n t) /\
              (forall ks ts, showss h ks ts -> (forall k, In k ks -> ~ leads h k a) -> showss h' ks ts)) by apply X.
  apply shows_both.
  - intros n c H L. constructor. rewrite E; [exact H|]. intros ->. apply L. constructor.
  - intros n w p f d ks ts H _ IH L. apply SH_stack with ks.
    + rewrite E; [exact H|]. intros ->. apply L. constructor.
    + apply IH. intros k I M. apply L. econstructor; eauto.
  - constructor.
  - intros k ks t ts _ IH _ IHs L. constructor; [apply IH, L; now left|apply IHs; intros x I; apply L; now right].
Qed.
Definition good (h : heap) : Prop := forall n, (n < List.length h)%nat -> exists t, shows h n t.
(* a stack gets other members *)
Lemma restack h a w p f d ks w' p' f' d' ks' : nth_error h a = Some (NStk w p f d ks) ->
  (forall k, In k ks' -> exists t, shows h k t /\ ~ leads h k a) ->
  let h' := set_at h a (NStk w' p' f' d' ks') in
  forall n t, shows h n t -> exists t', shows h' n t'.
Proof.
  intros H K h'.
  assert (E : forall m, m <> a -> nth_error h' m = nth_error h m) by (intros m M; apply set_at_other; congruence).
  enough (X : (forall n t, shows h n t -> exists t', shows h' n t') /\
              (forall ls ts, showss h ls ts -> exists ts', showss h' ls ts')) by apply X.
  assert (A : exists t, shows h' a t).
  { destruct (showss_map h' ks') as [ts S].
    { intros k I. destruct (K k I) as (t & T & L). exists t. now apply (unchanged h h' a E). }
    exists (Stk w' p' f' d' ts). apply SH_stack with ks'; [|exact S]. apply set_at_same. now apply nth_lt in H. }
  apply shows_both.
  - intros n c N. destruct (Nat.eq_dec n a) as [->|D]; [exact A|]. exists (Leaf c). constructor. now rewrite E.
  - intros n w0 p0 f0 d0 ls ts N _ [ts' S]. destruct (Nat.eq_dec n a) as [->|D]; [exact A|].
    exists (Stk w0 p0 f0 d0 ts'). apply SH_stack with ls; [now rewrite E|exact S].
  - exists []. constructor.
  - intros k ks0 t ts _ [t' T] _ [ts' S]. exists (t' :: ts'). now constructor.
Qed.
(* the tree a stack shows after its own cell was changed *)
Lemma restack_self h a w p f d ks w' p' f' d' ks' ts' : nth_error h a = Some (NStk w p f d ks) ->
  showss h ks' ts' -> (forall k, In k ks' -> ~ leads h k a) ->
  shows (set_at h a (NStk w' p' f' d' ks')) a (Stk w' p' f' d' ts').
Proof.
  intros H S L. apply SH_stack with ks'; [apply set_at_same; now apply nth_lt in H|].
  apply (showss_change h); [exact S|]. intros k t I T. apply (unchanged h _ a); [|exact T|now apply L].
  intros m M. apply set_at_other. congruence.
Qed.
(* a rule is changed *)
Lemma rerule h a c c' : nth_error h a = Some (NRule c) -> forall n t, shows h n t ->
  exists t', shows (set_at h a (NRule c')) n t' /\ same_shape t t'.
Proof.
  intros H. set (h' := set_at h a (NRule c')).
  assert (E : forall m, m <> a -> nth_error h' m = nth_error h m) by (intros m M; apply set_at_other; congruence).
  assert (F : nth_error h' a = Some (NRule c')) by (apply set_at_same; now apply nth_lt in H).
  enough (X : (forall n t, shows h n t -> exists t', shows h' n t' /\ same_shape t t') /\
              (forall ls ts, showss h ls ts -> exists ts', showss h' ls ts' /\ same_shapes ts ts')) by apply X.
  apply shows_both.
  - intros n x N. destruct (Nat.eq_dec n a) as [->|D].
    + exists (Leaf c'). split; now constructor.
    + exists (Leaf x). split; constructor. now rewrite E.
  - intros n w p f d ks ts N _ (ts' & S & P). assert (D : n <> a) by congruence.
    exists (Stk w p f d ts'). split; [|now constructor]. apply SH_stack with ks; [now rewrite E|exact S].
  - exists []. split; constructor.
  - intros k ks t ts _ (t' & T & P) _ (ts' & S & Q). exists (t' :: ts'). split; now constructor.
Qed.

(* ---- paths ---- *)
Lemma walk_shows h q : forall r m T, walk h r q = Some m -> shows h r T -> exists t, part T q = Some t /\ shows h m t.
Proof.
  induction q as [|i q IH]; intros r m T W S; cbn [walk] in W.
  - injection W as <-. exists T. split; [destruct T; reflexivity|exact S].
  - destruct (nth_error h r) as [[c|w p f d ks]|] eqn:N; try discriminate W.
    destruct (nth_error ks i) as [k|] eqn:K; [|discriminate W].
    inversion S as [n' c' H'|n' w' p' f' d' ks' ts H' SS]; subst; rewrite N in H'; [discriminate|]. injection H' as <- <- <- <- <-.
    destruct (showss_nth _ _ _ _ _ SS K) as (t & E & T). destruct (IH k m t W T) as (u & P & U).
    exists u. split; [cbn [part]; now rewrite E|exact U].
Qed.
Lemma part_walk h q : forall r T t, shows h r T -> part T q = Some t -> exists m, walk h r q = Some m /\ shows h m t.
Proof.
  induction q as [|i q IH]; intros r T t S P.
  - destruct T; cbn in P; injection P as <-; exists r; now split.
  - inversion S as [n' c' H'|n' w p f d ks ts H' SS]; subst; cbn [part] in P; [discriminate P|].
    destruct (nth_error ts i) as [u|] eqn:N; [|discriminate P].
    assert (X : exists k, nth_error ks i = Some k).
    { destruct (nth_error ks i) eqn:K; [eauto|]. apply nth_error_None in K. apply nth_lt in N. apply showss_length in SS. lia. }
    destruct X as [k K]. destruct (showss_nth _ _ _ _ _ SS K) as (u' & E & U). rewrite N in E. injection E as <-.
    destruct (IH k u t U P) as (m & W & M). exists m. split; [cbn [walk]; now rewrite H', K|exact M].
Qed.
Lemma leads_walk h n m : leads h n m -> exists q, walk h n q = Some m.
Proof.
  induction 1 as [n|n k m w p f d ks H I L [q W]]; [now exists []|]. apply In_nth_error in I as [i I].
  exists (i :: q). cbn [walk]. now rewrite H, I.
Qed.
Lemma walk_leads h q : forall n m, walk h n q = Some m -> leads h n m.
Proof.
  induction q as [|i q IH]; intros n m W; cbn [walk] in W; [injection W as <-; constructor|].
  destruct (nth_error h n) as [[c|w p f d ks]|] eqn:N; try discriminate W.
  destruct (nth_error ks i) as [k|] eqn:K; [|discriminate W]. apply nth_in in K. econstructor; eauto.
Qed.
Lemma walk_rule h a c c' : nth_error h a = Some (NRule c) -> forall q n, walk (set_at h a (NRule c')) n q = walk h n q.
Proof.
  intros H q. induction q as [|i q IH]; intros n; [reflexivity|]. cbn [walk].
  destruct (Nat.eq_dec n a) as [->|D].
  - rewrite H, set_at_same by (now apply nth_lt in H). reflexivity.
  - rewrite set_at_other by congruence. destruct (nth_error h n) as [[?|? ? ? ? ks]|]; try reflexivity.
    destruct (nth_error ks i); [apply IH|reflexivity].
Qed.
Lemma exchange_shows h a c c' : nth_error h a = Some (NRule c) ->
  forall p r T, shows h r T -> walk h r p = Some a -> (forall q, walk h r q = Some a -> q = p) ->
  shows (set_at h a (NRule c')) r (exchange T p (Leaf c')).
Proof.
  intros H. set (h' := set_at h a (NRule c')).
  assert (E : forall m, m <> a -> nth_error h' m = nth_error h m) by (intros m M; apply set_at_other; congruence).
  induction p as [|i p IH]; intros r T S W U.
  - cbn [walk] in W. injection W as ->. destruct T; cbn [exchange]; constructor; apply set_at_same; now apply nth_lt in H.
  - cbn [walk] in W. destruct (nth_error h r) as [[x|w b f d ks]|] eqn:N; try discriminate W.
    destruct (nth_error ks i) as [k|] eqn:K; [|discriminate W].
    inversion S as [n' c0 H'|n' w' p' f' d' ks' ts H' SS]; subst; rewrite N in H'; [discriminate|]. injection H' as <- <- <- <- <-.
    destruct (showss_nth _ _ _ _ _ SS K) as (t & Et & T). cbn [exchange]. rewrite Et.
    assert (D : r <> a) by congruence.
    apply SH_stack with ks; [now rewrite E|].
    assert (V : shows h' k (exchange t p (Leaf c'))).
    { apply IH; [exact T|exact W|]. intros q Q. assert (X : i :: q = i :: p); [|now injection X].
      apply U. cbn [walk]. now rewrite N, K. }
    assert (O : forall j x, j <> i -> nth_error ks j = Some x -> ~ leads h x a).
    { intros j x J X L. apply leads_walk in L as [q Q]. assert (Y : j :: q = i :: p); [|injection Y; congruence].
      apply U. cbn [walk]. now rewrite N, X. }
    clear - SS V O K Et E. revert ts i SS K Et O. induction ks as [|k0 ks IHk]; intros ts i SS K Et O; [destruct i; discriminate K|].
    inversion SS as [|k1 ks1 t0 ts0 S0 SS0]; subst. destruct i as [|i]; cbn in K, Et.
    + injection K as ->. injection Et as ->. cbn [set_at]. constructor; [exact V|].
      apply (showss_change h); [exact SS0|]. intros x u I X. apply (unchanged h h' a E); [exact X|].
      apply In_nth_error in I as [j J]. apply (O (S j)); [discriminate|exact J].
    + cbn [set_at]. constructor.
      * apply (unchanged h h' a E); [exact S0|]. apply (O 0%nat); [discriminate|reflexivity].
      * apply IHk; auto. intros j x J X. apply (O (S j)); [congruence|exact X].
Qed.

(* ---- C95: the value Traverse returns is the member itself ---- *)
Lemma br_step_some c k : exists c', br_step (Some c) k = Some c'.
Proof.
  destruct k; cbn [br_step br_init br_set_keyword br_set_expression on_cond br_paren br_nopadding]; eauto.
  - unfold br_set_operator. destruct (_ && _)%bool; [eauto|]. destruct (_ =? _)%N; cbn [on_cond]; eauto.
  - unfold br_set_quote_style. destruct (c_ex c) as [[|[]|]|]; eauto.
Qed.
Lemma node_at_shows s x r T : g_var s x = Some r -> shows (g_heap s) r T ->
  exists d, node_at s x = Some (r, d) /\ nth_error (g_heap s) r = Some d.
Proof. intros V S. unfold node_at. rewrite V. inversion S as [n c H|n w p f d ks ts H _]; subst; rewrite H; eauto. Qed.
Lemma set_var_same f x v : set_var f x v x = v.
Proof. unfold set_var. now rewrite Nat.eqb_refl. Qed.
Lemma set_var_other f x v y : y <> x -> set_var f x v y = f y.
Proof. intros H. unfold set_var. destruct (Nat.eqb_spec y x); congruence. Qed.
(* what Traverse does along a path to a rule *)
Lemma traverse_rule s x z p T c : var_shows s x T -> part T p = Some (Leaf c) ->
  exists r n, g_var s x = Some r /\ shows (g_heap s) r T /\ walk (g_heap s) r p = Some n /\
    nth_error (g_heap s) n = Some (NRule c) /\ g_step s (GTraverse z x p) = with_var s z (Some n).
Proof.
  intros (r & V & S) P. destruct (part_walk _ _ _ _ _ S P) as (n & W & N). exists r, n.
  assert (N' : nth_error (g_heap s) n = Some (NRule c)) by (inversion N; congruence).
  do 4 (split; [assumption|]). destruct (node_at_shows _ _ _ _ V S) as (d & D & Nr). cbn [g_step]. rewrite D.
  destruct d as [c0|w b f d ks].
  - destruct p as [|i p]; cbn [walk] in W; [injection W as <-; reflexivity|]. rewrite Nr in W. discriminate W.
  - destruct p as [|i p]; [|now rewrite W]. cbn [walk] in W. injection W as <-. rewrite Nr in N'. discriminate N'.
Qed.
Theorem C95_write : forall s x z p k T c, var_shows s x T -> part T p = Some (Leaf c) -> z <> x ->
  let s1 := g_step s (GTraverse z x p) in
  let s2 := g_step s1 (GCall z k) in
  var_shows s1 z (Leaf c) /\ var_shows s1 x T /\
  exists c' T', br_step (Some c) k = Some c' /\ var_shows s2 z (Leaf c') /\ var_shows s2 x T' /\
    part T' p = Some (Leaf c') /\ same_shape T T' /\
    (* every rule of x but those that are this one is as it was *)
    (forall r q m t, g_var s x = Some r -> walk (g_heap s) r q = Some m -> part T q = Some t ->
       (forall n, g_var s1 z = Some n -> ~ leads (g_heap s) m n) -> part T' q = Some t).
Proof.
  intros s x z p k T c VS P ZX s1 s2.
  destruct (traverse_rule s x z p T c VS P) as (r & n & V & S & W & N & E1). fold s1 in E1.
  assert (Z1 : g_var s1 z = Some n) by (rewrite E1; apply set_var_same).
  assert (X1 : g_var s1 x = Some r) by (rewrite E1; cbn [with_var g_var]; rewrite set_var_other; congruence).
  assert (H1 : g_heap s1 = g_heap s) by now rewrite E1.
  split; [exists n; split; [exact Z1|rewrite H1; now constructor]|]. split; [exists r; split; [exact X1|now rewrite H1]|].
  destruct (br_step_some c k) as [c' C]. destruct (rerule _ _ _ c' N _ _ S) as (T' & S' & Sh). exists c', T'.
  assert (E2 : s2 = with_node s1 n (NRule c')).
  { unfold s2. cbn [g_step]. unfold node_at. rewrite Z1, H1, N, C. reflexivity. }
  assert (H2 : g_heap s2 = set_at (g_heap s) n (NRule c')) by (rewrite E2; cbn [with_node g_heap]; now rewrite H1).
  assert (F : shows (g_heap s2) n (Leaf c')) by (rewrite H2; constructor; apply set_at_same; now apply nth_lt in N).
  assert (S2 : shows (g_heap s2) r T') by now rewrite H2.
  split; [exact C|]. split; [exists n; split; [now rewrite E2|exact F]|]. split; [exists r; split; [now rewrite E2|exact S2]|].
  assert (Wq : forall q, walk (g_heap s2) r q = walk (g_heap s) r q) by (intros q; rewrite H2; now apply walk_rule with c).
  split.
  { destruct (walk_shows (g_heap s2) p r n T') as (t & Pt & St); [now rewrite Wq|exact S2|]. now rewrite Pt, (det _ _ _ _ St F). }
  split; [exact Sh|].
  intros r' q m t Vr Wm Pt L. rewrite V in Vr. injection Vr as <-.
  destruct (walk_shows _ q r m T Wm S) as (t0 & Pt0 & St0). rewrite Pt in Pt0. injection Pt0 as <-.
  destruct (walk_shows (g_heap s2) q r m T') as (t' & Pt' & St'); [now rewrite Wq|exact S2|].
  rewrite Pt'. f_equal. apply (det _ _ _ _ St'). rewrite H2. apply (unchanged (g_heap s) _ n); [|exact St0|now apply L].
  intros i I. apply set_at_other. congruence.
Qed.
(* a rule that occurs once: the tree with that rule exchanged *)
Theorem C95_once : forall s x z p k T c r n, var_shows s x T -> part T p = Some (Leaf c) -> z <> x ->
  g_var s x = Some r -> walk (g_heap s) r p = Some n -> (forall q, walk (g_heap s) r q = Some n -> q = p) ->
  exists c', br_step (Some c) k = Some c' /\
    var_shows (g_run s [GTraverse z x p; GCall z k]) x (exchange T p (Leaf c')).
Proof.
  intros s x z p k T c r n VS P ZX V W U.
  destruct (traverse_rule s x z p T c VS P) as (r' & n' & V' & S & W' & N & E1).
  rewrite V in V'. injection V' as <-. rewrite W in W'. injection W' as <-.
  destruct (br_step_some c k) as [c' C]. exists c'. split; [exact C|].
  exists r. change (g_run s [GTraverse z x p; GCall z k]) with (g_step (g_step s (GTraverse z x p)) (GCall z k)). rewrite E1.
  cbn [g_step]. unfold node_at. cbn [with_var g_var g_heap]. rewrite set_var_same, N, C.
  cbn [with_node with_var g_heap g_var]. split; [rewrite set_var_other; congruence|]. now apply exchange_shows with c.
Qed.
(* other variables: unchanged unless they lead to the same rule *)
Theorem C95_others : forall s z k n c y m t, g_var s z = Some n -> nth_error (g_heap s) n = Some (NRule c) ->
  g_var s y = Some m -> shows (g_heap s) m t -> ~ leads (g_heap s) m n -> var_shows (g_step s (GCall z k)) y t.
Proof.
  intros s z k n c y m t Z N Y S L. destruct (br_step_some c k) as [c' C]. exists m. cbn [g_step]. unfold node_at.
  rewrite Z, N, C. cbn [with_node g_heap g_var]. split; [exact Y|]. apply (unchanged (g_heap s) _ n); [|exact S|exact L].
  intros i I. apply set_at_other. congruence.
Qed.
Print Assumptions C95_write.
Print Assumptions C95_once.
Print Assumptions C95_others.
(* bind_test.go:192-236, in small: a rule in a stack in a stack *)
Definition rule0 : cond := MkCond "ssf" (Some 6%N) (Some (XText "128")) true false true.
Definition prog95 : list gstmt :=
  [GRule 0 rule0; GRule 1 cA; GNew 2 WAnd true; GPush 2 0; GNew 3 WOr true; GPush 3 1; GPush 3 2].
(* the tree of a reference, up to a depth, to compute examples *)
Fixpoint tree_of (d : nat) (h : heap) (n : nat) : option tree :=
  match d with
  | O => None
  | S d => match nth_error h n with
           | None => None
           | Some (NRule c) => Some (Leaf c)
           | Some (NStk w p f pad ks) =>
               match fold_right (fun k acc => match tree_of d h k, acc with Some t, Some ts => Some (t :: ts) | _, _ => None end) (Some []) ks with
               | Some ts => Some (Stk w p f pad ts)
               | None => None
               end
           end
  end.
Lemma tree_of_shows d h : forall n t, tree_of d h n = Some t -> shows h n t.
Proof.
  induction d as [|d IH]; intros n t H; [discriminate H|]. cbn [tree_of] in H.
  destruct (nth_error h n) as [[c|w p f pad ks]|] eqn:N; [injection H as <-; now constructor| |discriminate H].
  destruct (fold_right _ _ ks) as [ts|] eqn:F; [|discriminate H]. injection H as <-. apply SH_stack with ks; [exact N|]. clear N.
  revert ts F. induction ks as [|k ks IHk]; intros ts F; cbn [fold_right] in F; [injection F as <-; constructor|].
  destruct (tree_of d h k) as [u|] eqn:U; [|discriminate F]. destruct (fold_right _ _ ks) as [us|]; [|discriminate F].
  injection F as <-. constructor; [now apply IH|now apply IHk].
Qed.
Definition var_tree (s : gst) (x : nat) : option tree :=
  match g_var s x with Some n => tree_of 10 (g_heap s) n | None => None end.
Lemma var_tree_shows s x t : var_tree s x = Some t -> var_shows s x t.
Proof. unfold var_tree. destruct (g_var s x) as [n|] eqn:V; [|discriminate]. intros H. exists n. split; [exact V|now apply tree_of_shows in H]. Qed.
Example C95_witness :
  let s := g_run g_start prog95 in
  let T := Stk WOr false false true [Leaf cA; Stk WAnd false false true [Leaf rule0]] in
  let s2 := g_run s [GTraverse 4 3 [1; 0]%nat; GCall 4 (BExpression (Some (XText "164")))] in
  let T' := Stk WOr false false true [Leaf cA; Stk WAnd false false true [Leaf (MkCond "ssf" (Some 6%N) (Some (XText "164")) true false true)]] in
  var_shows s 3 T /\ part T [1; 0]%nat = Some (Leaf rule0) /\ var_shows s2 3 T'.
Proof.
  repeat apply conj; [apply var_tree_shows; vm_compute; reflexivity|vm_compute; reflexivity|apply var_tree_shows; vm_compute; reflexivity].
Qed.

(* ---- C96: a stack has a finite text ---- *)
Definition wf (s : gst) : Prop :=
  good (g_heap s) /\ (forall x n, g_var s x = Some n -> (n < List.length (g_heap s))%nat).
Lemma shows_lt h n t : shows h n t -> (n < List.length h)%nat.
Proof. intros S. inversion S as [n' c H|n' w p f d ks ts H _]; subst; now apply nth_lt in H. Qed.
Lemma shows_more h d n t : shows h n t -> shows (h ++ [d])%list n t.
Proof.
  enough (X : (forall n t, shows h n t -> shows (h ++ [d])%list n t) /\ (forall ks ts, showss h ks ts -> showss (h ++ [d])%list ks ts)) by apply X.
  apply shows_both; intros.
  - constructor. rewrite nth_error_app1; [assumption|]. now apply nth_lt in H.
  - apply SH_stack with ks; [|assumption]. rewrite nth_error_app1; [assumption|]. now apply nth_lt in H.
  - constructor.
  - now constructor.
Qed.
Lemma wf_fresh s x d t : wf s -> (forall h, nth_error (h ++ [d])%list (List.length h) = Some d -> shows (h ++ [d])%list (List.length h) t) -> wf (fresh s x d).
Proof.
  intros [G V] D. split.
  - intros n H. cbn [fresh g_heap] in *. rewrite app_length in H. cbn in H.
    destruct (Nat.eq_dec n (List.length (g_heap s))) as [->|E].
    + exists t. apply D. rewrite nth_error_app2, Nat.sub_diag by lia. reflexivity.
    + destruct (G n) as [u U]; [lia|]. exists u. now apply shows_more.
  - intros y n H. cbn [fresh g_heap g_var] in *. rewrite app_length. cbn. unfold set_var in H.
    destruct (y =? x)%nat; [injection H as <-; lia|]. apply V in H. lia.
Qed.
Lemma wf_var s z v : wf s -> (forall n, v = Some n -> (n < List.length (g_heap s))%nat) -> wf (with_var s z v).
Proof. intros [G V] H. split; [exact G|]. intros y n E. cbn [with_var g_var g_heap] in *. unfold set_var in E. destruct (y =? z)%nat; [auto|now apply V with y]. Qed.
Lemma wf_node s a w p f d ks w' p' f' d' ks' : wf s -> nth_error (g_heap s) a = Some (NStk w p f d ks) ->
  (forall k, In k ks' -> In k ks \/ ((k < List.length (g_heap s))%nat /\ ~ leads (g_heap s) k a)) ->
  wf (with_node s a (NStk w' p' f' d' ks')).
Proof.
  intros [G V] H K. split.
  - intros n L. cbn [with_node g_heap] in *. rewrite set_at_length in L. destruct (G n L) as [t T].
    apply (restack _ a w p f d ks) with t; [exact H| |exact T]. intros k I. destruct (K k I) as [J|[J NL]].
    + destruct (G a) as [u U]; [now apply nth_lt in H|]. assert (NL := no_loop _ _ _ _ _ _ _ _ H U k J).
      inversion U as [n' c' H'|n' w0 p0 f0 d0 ks0 ts H' S]; subst; rewrite H in H'; [discriminate|]. injection H' as <- <- <- <- <-.
      destruct (showss_in _ _ _ _ S J) as (v & _ & W). eauto.
    + destruct (G k J) as [u U]. eauto.
  - intros x n E. cbn [with_node g_heap g_var] in *. rewrite set_at_length. now apply V with x.
Qed.
Lemma wf_kids s a w p f d ks : wf s -> nth_error (g_heap s) a = Some (NStk w p f d ks) ->
  forall k, In k ks -> (k < List.length (g_heap s))%nat.
Proof.
  intros [G V] H k I. destruct (G a) as [u U]; [now apply nth_lt in H|].
  inversion U as [n' c' H'|n' w0 p0 f0 d0 ks0 ts H' S]; subst; rewrite H in H'; [discriminate|]. injection H' as <- <- <- <- <-.
  destruct (showss_in _ _ _ _ S I) as (v & _ & W). now apply shows_lt in W.
Qed.
Lemma node_at_some s x n d : node_at s x = Some (n, d) -> g_var s x = Some n /\ nth_error (g_heap s) n = Some d.
Proof.
  unfold node_at. destruct (g_var s x) as [m|]; [|discriminate]. destruct (nth_error (g_heap s) m) as [e|] eqn:E; [|discriminate].
  intros H. injection H as <- <-. now split.
Qed.
Lemma walk_lt s p : wf s -> forall n m, (n < List.length (g_heap s))%nat -> walk (g_heap s) n p = Some m -> (m < List.length (g_heap s))%nat.
Proof.
  intros H. induction p as [|i p IH]; intros n m L W; cbn [walk] in W; [now injection W as <-|].
  destruct (nth_error (g_heap s) n) as [[c|w b f d ks]|] eqn:N; try discriminate W.
  destruct (nth_error ks i) as [k|] eqn:K; [|discriminate W]. apply nth_in in K. apply IH with k; [|exact W]. now apply (wf_kids s n w b f d ks).
Qed.
Lemma wf_step s c : wf s -> safe s c -> wf (g_step s c).
Proof.
  intros H SF. assert (V := proj2 H). destruct c; cbn [g_step safe] in *.
  - now apply wf_fresh with (Leaf c); [|constructor].
  - apply wf_fresh with (Stk w false false pad []); [exact H|]. intros h N. apply SH_stack with []; [exact N|constructor].
  - apply wf_var; [exact H|]. intros n E. now apply V with y.
  - unfold on_stack. destruct (node_at s x) as [[n [c|w p f d ks]]|] eqn:N; try exact H.
    destruct (node_at s y) as [[m e]|] eqn:M; [|exact H]. destruct (acceptable e); [|exact H].
    apply node_at_some in N as [Vx N]. apply node_at_some in M as [Vy M].
    apply (wf_node s n w p f d ks); [exact H|exact N|]. intros k I. apply in_app_or in I as [I|[<-|[]]]; [now left|right].
    split; [now apply nth_lt in M|now apply SF].
  - destruct (node_at s x) as [[n [c|w p f d ks]]|] eqn:N; try (apply wf_var; [exact H|discriminate]).
    apply node_at_some in N as [Vx N]. apply wf_var.
    + apply (wf_node s n w p f d ks); [exact H|exact N|]. intros k I. left. now apply removelast_in.
    + intros k E. cbn [with_node g_heap]. rewrite set_at_length. apply nth_in in E. now apply (wf_kids s n w p f d ks).
  - destruct (node_at s x) as [[n [c|w p f d ks]]|] eqn:N; try (apply wf_var; [exact H|discriminate]);
      apply node_at_some in N as [Vx N]; apply wf_var; try exact H; intros k E.
    + injection E as <-. now apply nth_lt in N.
    + apply nth_in in E. now apply (wf_kids s n w p f d ks).
  - destruct (node_at s x) as [[n [c|w p' f d ks]]|] eqn:N; try (apply wf_var; [exact H|discriminate]);
      apply node_at_some in N as [Vx N]; apply wf_var; try exact H; intros k E.
    + injection E as <-. now apply nth_lt in N.
    + destruct p as [|i p]; [discriminate E|]. apply (walk_lt s (i :: p) H n k); [now apply nth_lt in N|exact E].
  - unfold on_stack. destruct (node_at s x) as [[n [c|w p f d ks]]|] eqn:N; try exact H.
    destruct (node_at s y) as [[m e]|] eqn:M; [|exact H]. destruct (acceptable e); [|exact H].
    apply node_at_some in N as [Vx N]. apply node_at_some in M as [Vy M].
    apply (wf_node s n w p f d ks); [exact H|exact N|]. intros k I. apply set_at_in in I as [->|I]; [right|now left].
    split; [now apply nth_lt in M|now apply SF].
  - destruct (node_at s x) as [[n [c0|w p f d ks]]|] eqn:N; try exact H. apply node_at_some in N as [Vx N].
    destruct (br_step_some c0 c) as [c' ->]. destruct H as [G _]. split.
    + intros m L. cbn [with_node g_heap] in *. rewrite set_at_length in L. destruct (G m L) as [t T].
      destruct (rerule _ _ _ c' N _ _ T) as (t' & T' & _). eauto.
    + intros y m E. cbn [with_node g_heap g_var] in *. rewrite set_at_length. now apply V with y.
  - unfold on_stack. destruct (node_at s x) as [[n [c|w p f d ks]]|] eqn:N; try exact H. apply node_at_some in N as [Vx N].
    apply (wf_node s n w p f d ks); auto.
  - unfold on_stack. destruct (node_at s x) as [[n [c|w p f d ks]]|] eqn:N; try exact H. apply node_at_some in N as [Vx N].
    apply (wf_node s n w p f d ks); auto.
  - unfold on_stack. destruct (node_at s x) as [[n [c|w p f d ks]]|] eqn:N; try exact H. apply node_at_some in N as [Vx N].
    apply (wf_node s n w p f d ks); auto.
Qed.
Lemma wf_run prog : forall s, wf s -> safe_run s prog -> wf (g_run s prog).
Proof.
  induction prog as [|c r IH]; intros s H SF; [exact H|]. destruct SF as [A B]. change (g_run s (c :: r)) with (g_run (g_step s c) r).
  apply IH; [now apply wf_step|exact B].
Qed.
Lemma wf_start : wf g_start.
Proof. split; [intros n H; cbn in H; lia|discriminate]. Qed.
Theorem C96_partial : forall prog, safe_run g_start prog ->
  forall x n, g_var (g_run g_start prog) x = Some n -> exists t, var_shows (g_run g_start prog) x t.
Proof.
  intros prog SF x n E. destruct (wf_run prog g_start wf_start SF) as [G V]. destruct (G n) as [t T]; [now apply V with x|].
  exists t. exists n. now split.
Qed.
(* one Push is all it takes, and it is exactly the Push of a stack that contains
   the receiver *)
Theorem C96_exact : forall prog x y n m, safe_run g_start prog ->
  let s := g_run g_start prog in
  g_var s x = Some n -> g_var s y = Some m -> (exists w p f d ks, nth_error (g_heap s) n = Some (NStk w p f d ks)) ->
  (exists e, nth_error (g_heap s) m = Some e /\ acceptable e = true) ->
  ((exists t, var_shows (g_step s (GPush x y)) x t) <-> ~ leads (g_heap s) m n).
Proof.
  intros prog x y n m SF s Vx Vy (w & p & f & d & ks & N) (e & M & A).
  assert (H := wf_run prog g_start wf_start SF). fold s in H.
  assert (E : g_step s (GPush x y) = with_node s n (NStk w p f d (ks ++ [m])%list)).
  { cbn [g_step]. unfold on_stack, node_at. now rewrite Vx, N, Vy, M, A. }
  split.
  - intros (t & n' & Vn & T) L. rewrite E in Vn, T. cbn [with_node g_var g_heap] in Vn, T. rewrite Vx in Vn. injection Vn as <-.
    set (h' := set_at (g_heap s) n (NStk w p f d (ks ++ [m])%list)) in T.
    assert (N' : nth_error h' n = Some (NStk w p f d (ks ++ [m])%list)) by (apply set_at_same; now apply nth_lt in N).
    apply (no_loop h' n w p f d (ks ++ [m])%list t N' T m); [apply in_or_app; right; now left|].
    assert (X : forall a b, leads (g_heap s) a b -> b = n -> leads h' a n).
    { clear -N N'. induction 1 as [a|a k b w0 p0 f0 d0 ks0 H I L IH]; intros ->; [constructor|].
      destruct (Nat.eq_dec a n) as [->|D]; [constructor|]. apply L_down with k w0 p0 f0 d0 ks0; [|exact I|now apply IH].
      unfold h'. now rewrite set_at_other by congruence. }
    now apply (X m n).
  - intros L. assert (W : wf (g_step s (GPush x y))).
    { apply wf_step; [exact H|]. cbn [safe]. intros n' m' Vn Vm. rewrite Vx in Vn. rewrite Vy in Vm. injection Vn as <-. injection Vm as <-. exact L. }
    destruct W as [G V]. assert (B : g_var (g_step s (GPush x y)) x = Some n) by now rewrite E.
    destruct (G n) as [t T]; [now apply V with x|]. exists t, n. now split.
Qed.
Theorem C96_refuted : ~ (forall prog x n, g_var (g_run g_start prog) x = Some n -> exists t, var_shows (g_run g_start prog) x t).
Proof.
  intros F. destruct (F [GNew 0 WAnd true; GPush 0 0] 0%nat 0%nat eq_refl) as (t & n & V & T).
  injection V as <-. cbn in T. apply (no_loop [NStk WAnd false false true [0]%nat] 0%nat WAnd false false true [0]%nat t eq_refl T 0%nat); [now left|constructor].
Qed.
Print Assumptions C96_partial.
Print Assumptions C96_exact.
Print Assumptions C96_refuted.
Example C96_witness : safe_run g_start prog95.
Proof.
  cbn [safe_run prog95 safe]. repeat split; intros n m A B; vm_compute in A, B; injection A as <-; injection B as <-;
    intros L; inversion L as [|n' k m' w p f d ks H I L']; subst; try (vm_compute in H; discriminate H).
  vm_compute in H. injection H as <- <- <- <- <-. destruct I as [<-|[]]. inversion L' as [|n' k' m' w' p' f' d' ks' H' I' L'']; subst.
  vm_compute in H'. discriminate H'.
Qed.

(* ---- C97: Index, Push, Pop and Replace address members, and nothing else ---- *)
Lemma shown_stack s x w p f d ts : var_shows s x (Stk w p f d ts) ->
  exists n ks, g_var s x = Some n /\ nth_error (g_heap s) n = Some (NStk w p f d ks) /\ node_at s x = Some (n, NStk w p f d ks) /\
    showss (g_heap s) ks ts /\ (forall k, In k ks -> ~ leads (g_heap s) k n).
Proof.
  intros (n & V & S). assert (S0 := S). inversion S as [|n' w' p' f' d' ks ts' H SS]; subst. exists n, ks. repeat apply conj; auto.
  - unfold node_at. now rewrite V, H.
  - intros k I. now apply (no_loop _ n w p f d ks _ H S0).
Qed.
Lemma showss_none h ks ts i : showss h ks ts -> nth_error ts i = None -> nth_error ks i = None.
Proof. intros S H. apply nth_error_None. apply nth_error_None in H. now rewrite (showss_length _ _ _ S). Qed.
Lemma showss_nth' h ks ts i t : showss h ks ts -> nth_error ts i = Some t -> exists k, nth_error ks i = Some k /\ shows h k t.
Proof.
  intros S H. destruct (nth_error ks i) as [k|] eqn:K; [|apply nth_error_None in K; apply nth_lt in H; rewrite (showss_length _ _ _ S) in K; lia].
  destruct (showss_nth _ _ _ _ _ S K) as (u & U & W). rewrite H in U. injection U as <-. eauto.
Qed.
Theorem C97_index : forall s x z i,
  (forall w p f d ts, var_shows s x (Stk w p f d ts) ->
     match nth_error ts i with
     | Some t => var_shows (g_step s (GIndex z x i)) z t
     | None => g_var (g_step s (GIndex z x i)) z = None
     end) /\
  (forall c, var_shows s x (Leaf c) -> var_shows (g_step s (GIndex z x i)) z (Leaf c)) /\
  g_heap (g_step s (GIndex z x i)) = g_heap s /\
  (forall y, y <> z -> g_var (g_step s (GIndex z x i)) y = g_var s y).
Proof.
  intros s x z i. repeat apply conj.
  - intros w p f d ts H. destruct (shown_stack _ _ _ _ _ _ _ H) as (n & ks & V & N & A & S & _). cbn [g_step]. rewrite A.
    destruct (nth_error ts i) as [t|] eqn:T.
    + destruct (showss_nth' _ _ _ _ _ S T) as (k & K & W). exists k. cbn [with_var g_var g_heap]. now rewrite set_var_same.
    + cbn [with_var g_var]. rewrite set_var_same. now apply showss_none with (g_heap s) ts.
  - intros c (n & V & S). exists n. cbn [g_step]. unfold node_at. inversion S as [n' c' H|]; subst. rewrite V, H. cbn [with_var g_var g_heap]. now rewrite set_var_same.
  - cbn [g_step]. destruct (node_at s x) as [[n [|]]|]; reflexivity.
  - intros y Y. cbn [g_step]. destruct (node_at s x) as [[n [|]]|]; cbn [with_var g_var]; now rewrite set_var_other.
Qed.
(* what Push is given, as in the tree model *)
Definition as_arg (t : tree) : barg := match t with Leaf c => PRule (Some c) | Stk _ _ _ _ _ => PStack (Some t) end.
Theorem C97_push : forall s x y w p f d ts u n m, var_shows s x (Stk w p f d ts) -> var_shows s y u ->
  g_var s x = Some n -> g_var s y = Some m -> ~ leads (g_heap s) m n ->
  var_shows (g_step s (GPush x y)) x (Stk w p f d (brs_push1 ts (as_arg u))) /\
  var_shows (g_step s (GPush x y)) y u.
Proof.
  intros s x y w p f d ts u n m X (m' & Vy & U) Vx Vy' L. rewrite Vy in Vy'. injection Vy' as ->.
  destruct (shown_stack _ _ _ _ _ _ _ X) as (n' & ks & V & N & A & S & NL). rewrite Vx in V. injection V as <-.
  assert (Acc : forall e, nth_error (g_heap s) m = Some e ->
     brs_push1 ts (as_arg u) = if acceptable e then (ts ++ [u])%list else ts).
  { intros e E. inversion U as [? c H|? w0 p0 f0 d0 ks0 ts0 H SS]; subst; rewrite H in E; injection E as <-; reflexivity. }
  destruct (node_at_shows _ _ _ _ Vy U) as (e & B & E). rewrite (Acc e E). cbn [g_step]. unfold on_stack. rewrite A, B.
  destruct (acceptable e).
  - split.
    + exists n. cbn [with_node g_var g_heap]. split; [exact Vx|]. apply restack_self with w p f d ks; [exact N| |].
      * apply showss_app; [exact S|]. constructor; [exact U|constructor].
      * intros k I. apply in_app_or in I as [I|[<-|[]]]; auto.
    + exists m. cbn [with_node g_var g_heap]. split; [exact Vy|]. apply (unchanged (g_heap s) _ n); [|exact U|exact L].
      intros i I. apply set_at_other. congruence.
  - split; [exact X|exists m; now split].
Qed.
Lemma last_app {A} (l : list A) : l <> [] -> exists a b, l = (a ++ [b])%list.
Proof. intros H. destruct (exists_last H) as (a & b & E). eauto. Qed.
Theorem C97_pop : forall s x z w p f d ts, var_shows s x (Stk w p f d ts) -> z <> x ->
  let s' := g_step s (GPop z x) in
  (forall us u, ts = (us ++ [u])%list -> var_shows s' x (Stk w p f d us) /\ var_shows s' z u) /\
  (ts = [] -> var_shows s' x (Stk w p f d []) /\ g_var s' z = None).
Proof.
  intros s x z w p f d ts X ZX s'. destruct (shown_stack _ _ _ _ _ _ _ X) as (n & ks & V & N & A & S & NL).
  assert (E : s' = with_var (with_node s n (NStk w p f d (removelast ks))) z (nth_error ks (List.length ks - 1))).
  { unfold s'. cbn [g_step]. now rewrite A. }
  assert (X' : var_shows s' x (Stk w p f d (removelast ts))).
  { exists n. rewrite E. cbn [with_var with_node g_heap g_var]. split; [rewrite set_var_other; congruence|].
    apply restack_self with w p f d ks; [exact N|now apply showss_removelast|]. intros k I. apply NL. now apply removelast_in. }
  split.
  - intros us u ->. split; [now rewrite removelast_last in X'|].
    destruct (showss_nth' _ ks (us ++ [u])%list (List.length ks - 1) u S) as (k & K & U).
    { rewrite (showss_length _ _ _ S), app_length. cbn. rewrite nth_error_app2, Nat.add_sub, Nat.sub_diag by lia. reflexivity. }
    exists k. rewrite E. cbn [with_var with_node g_heap g_var]. rewrite set_var_same. split; [exact K|].
    apply (unchanged (g_heap s) _ n); [|exact U|apply NL; now apply nth_in in K]. intros i I. apply set_at_other. congruence.
  - intros ->. split; [exact X'|]. rewrite E. cbn [with_var g_var]. rewrite set_var_same. inversion S; subst. reflexivity.
Qed.
Theorem C97_replace : forall s x y w p f d ts u i n m, var_shows s x (Stk w p f d ts) -> var_shows s y u ->
  g_var s x = Some n -> g_var s y = Some m -> ~ leads (g_heap s) m n ->
  brs_push1 [] (as_arg u) = [u] ->
  exists us, var_shows (g_step s (GReplace x y i)) x (Stk w p f d us) /\ List.length us = List.length ts /\
    forall j, nth_error us j = (if (j =? i)%nat then (if (i <? List.length ts)%nat then Some u else None) else nth_error ts j).
Proof.
  intros s x y w p f d ts u i n m X (m' & Vy & U) Vx Vy' L AC. rewrite Vy in Vy'. injection Vy' as ->.
  destruct (shown_stack _ _ _ _ _ _ _ X) as (n' & ks & V & N & A & S & NL). rewrite Vx in V. injection V as <-.
  destruct (node_at_shows _ _ _ _ Vy U) as (e & B & E).
  assert (Acc : acceptable e = true).
  { inversion U as [? c H|? w0 p0 f0 d0 ks0 ts0 H SS]; subst; rewrite H in E; injection E as <-; [|reflexivity].
    cbn [as_arg brs_push1] in AC. cbn [acceptable]. destruct (negb _); [reflexivity|discriminate AC]. }
  exists (set_at ts i u). repeat apply conj.
  - exists n. cbn [g_step]. unfold on_stack. rewrite A, B, Acc. cbn [with_node g_var g_heap]. split; [exact Vx|].
    apply restack_self with w p f d ks; [exact N|now apply showss_set|]. intros k I. apply set_at_in in I as [->|I]; auto.
  - apply set_at_length.
  - intros j. destruct (Nat.eqb_spec j i) as [->|D]; [|apply set_at_other; congruence].
    destruct (Nat.ltb_spec i (List.length ts)) as [I|I]; [now apply set_at_same|]. apply nth_error_None. now rewrite set_at_length.
Qed.
(* no statement changes what another variable shows unless that variable leads to
   the receiver *)
Definition receiver (c : gstmt) : option nat :=
  match c with
  | GPush x _ | GPop _ x | GReplace x _ _ | GCall x _ | GParen x _ | GFold x _ | GNoPadding x _ => Some x
  | _ => None
  end.
Definition assigned (c : gstmt) : option nat :=
  match c with GRule x _ | GNew x _ _ | GCopy x _ => Some x | GPop z _ | GIndex z _ _ | GTraverse z _ _ => Some z | _ => None end.
Theorem C97_frame : forall s c v t m, g_var s v = Some m -> shows (g_heap s) m t -> assigned c <> Some v ->
  (forall x n, receiver c = Some x -> g_var s x = Some n -> ~ leads (g_heap s) m n) ->
  var_shows (g_step s c) v t.
Proof.
  intros s c v t m V S AS RC. exists m.
  assert (Keep : forall x n d, receiver c = Some x -> g_var s x = Some n -> shows (g_heap (with_node s n d)) m t).
  { intros x n d R G. cbn [with_node g_heap]. apply (unchanged (g_heap s) _ n); [|exact S|now apply (RC x)].
    intros i I. apply set_at_other. congruence. }
  assert (OS : forall x g, receiver c = Some x -> (forall n w p f d ks, g_var s x = Some n ->
             g n w p f d ks = s \/ exists e, g n w p f d ks = with_node s n e) ->
             g_var (on_stack s x g) v = Some m /\ shows (g_heap (on_stack s x g)) m t).
  { intros x g R G. unfold on_stack. destruct (node_at s x) as [[n [c0|w p f d ks]]|] eqn:A; try (now split).
    apply node_at_some in A as [Vx _]. destruct (G n w p f d ks Vx) as [E|[e E]]; rewrite E; [now split|].
    split; [exact V|now apply (Keep x)]. }
  destruct c; cbn [g_step assigned receiver] in *.
  - split; [cbn [fresh g_var]; rewrite set_var_other; congruence|cbn [fresh g_heap]; now apply shows_more].
  - split; [cbn [fresh g_var]; rewrite set_var_other; congruence|cbn [fresh g_heap]; now apply shows_more].
  - split; [cbn [with_var g_var]; rewrite set_var_other; congruence|exact S].
  - apply OS; [reflexivity|]. intros n w p f d ks _. destruct (node_at s y) as [[m' e]|]; [|now left]. destruct (acceptable e); [right; eauto|now left].
  - destruct (node_at s x) as [[n [c0|w p f d ks]]|] eqn:A; (split; [cbn [with_var with_node g_var]; rewrite set_var_other; congruence|]); try exact S.
    apply node_at_some in A as [Vx _]. now apply (Keep x).
  - destruct (node_at s x) as [[n [c0|w p f d ks]]|] eqn:A; (split; [cbn [with_var g_var]; rewrite set_var_other; congruence|exact S]).
  - destruct (node_at s x) as [[n [c0|w p' f d ks]]|] eqn:A; (split; [cbn [with_var g_var]; rewrite set_var_other; congruence|exact S]).
  - apply OS; [reflexivity|]. intros n w p f d ks _. destruct (node_at s y) as [[m' e]|]; [|now left]. destruct (acceptable e); [right; eauto|now left].
  - destruct (node_at s x) as [[n [c0|w p f d ks]]|] eqn:A; try (now split). apply node_at_some in A as [Vx _].
    destruct (br_step_some c0 c) as [c' ->]. split; [exact V|now apply (Keep x)].
  - apply OS; [reflexivity|]. eauto.
  - apply OS; [reflexivity|]. eauto.
  - apply OS; [reflexivity|]. eauto.
Qed.
(* the presentation settings *)
Theorem C97_settings : forall s x w p f d ts b, var_shows s x (Stk w p f d ts) ->
  var_shows (g_step s (GParen x b)) x (Stk w b f d ts) /\
  var_shows (g_step s (GFold x b)) x (Stk w p b d ts) /\
  var_shows (g_step s (GNoPadding x b)) x (Stk w p f (negb b) ts).
Proof.
  intros s x w p f d ts b X. destruct (shown_stack _ _ _ _ _ _ _ X) as (n & ks & V & N & A & S & NL).
  repeat apply conj; exists n; cbn [g_step]; unfold on_stack; rewrite A; (split; [exact V|]); cbn [with_node g_heap];
    apply restack_self with w p f d ks; auto.
Qed.
Print Assumptions C97_index.
Print Assumptions C97_push.
Print Assumptions C97_pop.
Print Assumptions C97_replace.
Print Assumptions C97_frame.
Print Assumptions C97_settings.
Example C97_witness :
  let s := g_run g_start prog95 in
  let inner := Stk WAnd false false true [Leaf rule0] in
  var_shows s 3 (Stk WOr false false true [Leaf cA; inner]) /\
  var_shows (g_step s (GIndex 5 3 1)) 5 inner /\
  var_shows (g_step s (GPop 5 3)) 3 (Stk WOr false false true [Leaf cA]) /\ var_shows (g_step s (GPop 5 3)) 5 inner /\
  var_shows (g_run s [GRule 6 cC; GReplace 3 6 0]) 3 (Stk WOr false false true [Leaf cC; inner]) /\
  (* a stack held twice: what is pushed into it shows in the outer one *)
  var_shows (g_run s [GPush 2 1]) 3 (Stk WOr false false true [Leaf cA; Stk WAnd false false true [Leaf rule0; Leaf cA]]).
Proof. repeat apply conj; apply var_tree_shows; vm_compute; reflexivity. Qed.
