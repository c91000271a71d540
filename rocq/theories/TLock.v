(* C129, C130 for bind rules: lists that are read-only. *)
From Coq Require Import String Ascii List PeanoNat NArith ZArith Bool Lia.
From Verif Require Import GoStr MKw MRule MTree TTree MAci MLock SLock MGraph SGraph TGraph.
Import ListNotations.
Open Scope string_scope.

(* ---- lemmas ---- *)
Lemma always_step {S C} (step : S -> C -> S) s p c (P : S -> Prop) :
  always (fun s p => fold_left step p s) s (p ++ [c])%list P -> always (fun s p => fold_left step p s) s p P.
Proof. intros H q r ->. apply (H q (r ++ [c])%list). now rewrite app_assoc. Qed.
Lemma always_last {S C} (run : S -> list C -> S) s p (P : S -> Prop) : always run s p P -> P (run s p).
Proof. intros H. apply (H p []). now rewrite app_nil_r. Qed.
Lemma each_step {S C} (step : S -> C -> S) s p c (P : S -> C -> Prop) :
  each (fun s p => fold_left step p s) s (p ++ [c])%list P -> each (fun s p => fold_left step p s) s p P /\ P (fold_left step p s) c.
Proof.
  intros H. split.
  - intros q d r ->. apply (H q d (r ++ [c])%list). now rewrite <- app_assoc.
  - now apply (H p c []).
Qed.

Section Bind.
Variables settings toggle : bool.
Notation step := (b_step settings toggle).
Notation run := (b_run settings toggle).

(* a statement without the bit changes an existing node only if it goes to it *)
Lemma g_untouched : forall s c m d, nth_error (g_heap s) m = Some d ->
  (forall x, receiver c = Some x -> g_var s x <> Some m) -> nth_error (g_heap (g_step s c)) m = Some d.
Proof.
  intros s c m d M R.
  assert (Keep : forall x n e, receiver c = Some x -> g_var s x = Some n -> nth_error (set_at (g_heap s) n e) m = Some d).
  { intros x n e RX V. rewrite set_at_other; [exact M|]. intros ->. now apply (R x). }
  assert (New : forall e, nth_error (g_heap s ++ [e])%list m = Some d).
  { intros e. rewrite nth_error_app1; [exact M|]. now apply nth_lt in M. }
  destruct c; cbn [g_step receiver] in *; try exact M; try apply New;
    unfold on_stack; try (destruct (node_at s x) as [[n [c0|w p' f d' ks]]|] eqn:A; try exact M; apply node_at_some in A as [V _]).
  - destruct (node_at s y) as [[m' e]|]; [|exact M]. destruct (acceptable e); [|exact M]. now apply (Keep x).
  - now apply (Keep x).
  - destruct (node_at s y) as [[m' e]|]; [|exact M]. destruct (acceptable e); [|exact M]. now apply (Keep x).
  - destruct (br_step (Some c0) c); [|exact M]. now apply (Keep x).
  - now apply (Keep x).
  - now apply (Keep x).
  - now apply (Keep x).
Qed.
(* what a refused statement leaves alone *)
Lemma refused_heap : forall s c, refused settings s c = true -> g_heap (b_g (step s (BDo c))) = g_heap (b_g s).
Proof. intros s c R. cbn [b_step]. rewrite R. now destruct c. Qed.
Lemma bit_step : forall s c n, ~ asks_bit s c n -> b_ro (step s c) n = b_ro s n.
Proof.
  intros s [c|x st] n N; cbn [b_step].
  - destruct (refused settings s c); [|reflexivity]. now destruct c.
  - destruct (node_at (b_g s) x) as [[m [e|w p f d ks]]|] eqn:A; try reflexivity. apply node_at_some in A as [V _].
    cbn [b_ro]. unfold set_bit. destruct (n =? m)%nat eqn:E; [|reflexivity]. apply Nat.eqb_eq in E as ->. destruct N. exists x, st. auto.
Qed.

(* ---- C129 ---- *)
(* while a list of bind rules is read-only its members stay, whatever the program does
   and whatever names it uses; so does the rest of it if the bit covers the settings *)
Theorem C129_bind : forall s p n w pa f d ks,
  nth_error (g_heap (b_g s)) n = Some (NStk w pa f d ks) -> always run s p (fun s => b_ro s n = true) ->
  exists pa' f' d', nth_error (g_heap (b_g (run s p))) n = Some (NStk w pa' f' d' ks) /\
    (settings = true -> pa' = pa /\ f' = f /\ d' = d) /\
    (each run s p (fun s c => ~ asks_setting s c n) -> pa' = pa /\ f' = f /\ d' = d).
Proof.
  intros s p n w pa f d ks N. induction p as [|c p IH] using rev_ind; intros A.
  - exists pa, f, d. auto.
  - destruct (IH (always_step _ _ _ _ _ A)) as (pa' & f' & d' & N' & S' & E'). apply always_step, always_last in A. unfold b_run in *.
    assert (St : each (fun s p => fold_left step p s) s (p ++ [c])%list (fun s c => ~ asks_setting s c n) -> pa' = pa /\ f' = f /\ d' = d).
    { intros E. apply each_step in E as [E _]. auto. }
    rewrite fold_left_app. cbn [fold_left]. set (u := fold_left step p s) in *.
    destruct c as [c|x st]; [|exists pa', f', d'; split; [|now split]; cbn [b_step]; destruct (node_at (b_g u) x) as [[m [e|? ? ? ? ?]]|]; exact N'].
    destruct (refused settings u c) eqn:R.
    { exists pa', f', d'. split; [|now split]. now rewrite refused_heap. }
    assert (D : forall x, receiver c = Some x -> {g_var (b_g u) x = Some n} + {g_var (b_g u) x <> Some n}).
    { intros x _. decide equality. apply Nat.eq_dec. }
    cbn [b_step]. rewrite R. cbn [b_g].
    destruct (receiver c) as [x|] eqn:RC; cycle 1.
    { exists pa', f', d'. split; [|now split]. apply g_untouched; [exact N'|]. rewrite RC. discriminate. }
    destruct (D x eq_refl) as [V|V]; cycle 1.
    { exists pa', f', d'. split; [|now split]. apply g_untouched; [exact N'|]. rewrite RC. now intros x0 [= <-]. }
    assert (NA : node_at (b_g u) x = Some (n, NStk w pa' f' d' ks)) by (unfold node_at; now rewrite V, N').
    assert (L : (n < List.length (g_heap (b_g u)))%nat) by now apply nth_lt in N'.
    unfold refused in R. destruct c; cbn [receiver stack_arg] in RC, R; try discriminate RC; injection RC as ->;
      try (rewrite NA, A in R; discriminate R).
    + exists pa', f', d'. cbn [g_step]. rewrite NA. now split.
    + destruct settings; [rewrite NA, A in R; discriminate R|]. exists b, f', d'. cbn [g_step]. unfold on_stack. rewrite NA. cbn [with_node g_heap].
      split; [now apply set_at_same|]. split; [discriminate|]. intros E. apply each_step in E as [_ E]. destruct E. exists x, b. auto.
    + destruct settings; [rewrite NA, A in R; discriminate R|]. exists pa', b, d'. cbn [g_step]. unfold on_stack. rewrite NA. cbn [with_node g_heap].
      split; [now apply set_at_same|]. split; [discriminate|]. intros E. apply each_step in E as [_ E]. destruct E. exists x, b. auto.
    + destruct settings; [rewrite NA, A in R; discriminate R|]. exists pa', f', (negb b). cbn [g_step]. unfold on_stack. rewrite NA. cbn [with_node g_heap].
      split; [now apply set_at_same|]. split; [discriminate|]. intros E. apply each_step in E as [_ E]. destruct E. exists x, b. auto.
Qed.
(* Push, Pop and Replace: refused if the bit is set, as without the bit otherwise; a
   refused Pop returns nothing *)
Theorem C129_refused : forall s x n w pa f d ks c, g_var (b_g s) x = Some n ->
  nth_error (g_heap (b_g s)) n = Some (NStk w pa f d ks) -> asks_members s (BDo c) n ->
  (b_ro s n = true -> g_heap (b_g (step s (BDo c))) = g_heap (b_g s) /\
     forall v, g_var (b_g (step s (BDo c))) v = if match c with GPop z _ => (v =? z)%nat | _ => false end then None else g_var (b_g s) v) /\
  (b_ro s n = false -> b_g (step s (BDo c)) = g_step (b_g s) c) /\
  (forall m, b_ro (step s (BDo c)) m = b_ro s m).
Proof.
  intros s x n w pa f d ks c V N (y & Vy & AM).
  assert (NA : node_at (b_g s) y = Some (n, NStk w pa f d ks)) by (unfold node_at; now rewrite Vy, N).
  assert (R : refused settings s c = b_ro s n).
  { destruct AM as [[z [= ->]]|[[z [= ->]]|(z & i & [= ->])]]; unfold refused; cbn [stack_arg]; now rewrite NA. }
  cbn [b_step]. rewrite R. destruct (b_ro s n) eqn:B; (split; [|split]); try discriminate; try (intros _); try reflexivity; try (intros m; now destruct c).
  split; [now destruct c|]. intros v. now destruct c.
Qed.
(* the bit: ReadOnly through any name of the list sets it, nothing else moves it *)
Theorem C129_bit : forall s c n,
  (~ asks_bit s c n -> b_ro (step s c) n = b_ro s n) /\
  (forall x w pa f d ks, g_var (b_g s) x = Some n -> nth_error (g_heap (b_g s)) n = Some (NStk w pa f d ks) ->
     (forall b, b_ro (step s (BReadOnly x (Some b))) n = b) /\
     (b_ro s n = false -> b_ro (step s (BReadOnly x None)) n = true) /\
     forall st, b_g (step s (BReadOnly x st)) = b_g s).
Proof.
  intros s c n. split; [apply bit_step|]. intros x w pa f d ks V N.
  assert (NA : node_at (b_g s) x = Some (n, NStk w pa f d ks)) by (unfold node_at; now rewrite V, N).
  cbn [b_step]. rewrite NA. cbn [b_ro b_g]. unfold set_bit. rewrite Nat.eqb_refl. split; [reflexivity|]. split; [|reflexivity].
  intros B. now rewrite B.
Qed.
(* in a program a bit is set only on an existing list, so that a new one is writable *)
Theorem C129_new : forall p n, b_ro (run b_start p) n = true ->
  exists w pa f d ks, nth_error (g_heap (b_g (run b_start p))) n = Some (NStk w pa f d ks).
Proof.
  assert (K : forall s c n, (exists w pa f d ks, nth_error (g_heap s) n = Some (NStk w pa f d ks)) ->
                            (exists w pa f d ks, nth_error (g_heap (g_step s c)) n = Some (NStk w pa f d ks))).
  { intros s c n (w & pa & f & d & ks & N). pose proof (nth_lt _ _ _ N) as L.
    destruct (receiver c) as [x|] eqn:RC; cycle 1.
    { exists w, pa, f, d, ks. apply g_untouched; [exact N|]. rewrite RC. discriminate. }
    assert (D : {g_var s x = Some n} + {g_var s x <> Some n}) by (decide equality; apply Nat.eq_dec).
    destruct D as [V|V]; cycle 1.
    { exists w, pa, f, d, ks. apply g_untouched; [exact N|]. rewrite RC. now intros x0 [= <-]. }
    assert (NA : node_at s x = Some (n, NStk w pa f d ks)) by (unfold node_at; now rewrite V, N).
    destruct c; cbn [receiver] in RC; try discriminate RC; injection RC as ->; cbn [g_step]; unfold on_stack; rewrite NA; cbn [with_node with_var g_heap];
      try (destruct (node_at s y) as [[m' e]|]; [destruct (acceptable e)|]); cbn [with_node with_var g_heap]; rewrite ?set_at_same by exact L; repeat eexists; eauto. }
  intros p. induction p as [|c p IH] using rev_ind; intros n; [discriminate|]. unfold b_run in *. rewrite fold_left_app. cbn [fold_left].
  set (u := fold_left step p b_start) in *. intros B. destruct c as [c|x st]; cbn [b_step] in *.
  - destruct (refused settings u c).
    + assert (X : b_ro u n = true) by (destruct c; exact B). apply IH in X. now destruct c.
    + cbn [b_g b_ro] in *. apply K. now apply IH.
  - destruct (node_at (b_g u) x) as [[m [e|w pa f d ks]]|] eqn:A; try (now apply IH). cbn [b_g b_ro] in *. unfold set_bit in B.
    destruct (n =? m)%nat eqn:E; [|now apply IH]. apply Nat.eqb_eq in E as ->. apply node_at_some in A as [_ A]. now repeat eexists; eauto.
Qed.

(* ---- C130 ---- *)
Lemma agree_shows : forall h h' n t, shows h n t -> (forall m, leads h n m -> nth_error h' m = nth_error h m) -> shows h' n t.
Proof.
  intros h h' n t S. revert n t S.
  enough (X : (forall n t, shows h n t -> (forall m, leads h n m -> nth_error h' m = nth_error h m) -> shows h' n t) /\
              (forall ks ts, showss h ks ts -> (forall k m, In k ks -> leads h k m -> nth_error h' m = nth_error h m) -> showss h' ks ts)) by apply X.
  apply shows_both.
  - intros n c H E. constructor. rewrite E; [exact H|constructor].
  - intros n w p f d ks ts H S IH E. econstructor; [rewrite E; [exact H|constructor]|]. apply IH. intros k m I L. apply E. econstructor; eauto.
  - constructor.
  - intros k ks t ts S IH SS IHs E. constructor; [apply IH; intros m L; apply (E k); [now left|exact L]|]. apply IHs. intros k' m I L. apply (E k'); [now right|exact L].
Qed.
(* a statement held back at m: it does not go to m, or it asks for a change of members
   (or of a setting, if the bit covers those) and m is read-only *)
Definition held (s : bst) (c : bstmt) (m : nat) : Prop :=
  ~ asks_rule s c m /\ (asks_members s c m -> b_ro s m = true) /\ (asks_setting s c m -> settings = true /\ b_ro s m = true).
(* the tree under a list stays as long as every statement is held back at everything
   the list leads to *)
Theorem C130_partial : forall s p n t, shows (g_heap (b_g s)) n t ->
  each run s p (fun u c => forall m, leads (g_heap (b_g s)) n m -> held u c m) ->
  shows (g_heap (b_g (run s p))) n t.
Proof.
  intros s p n t S E. apply agree_shows with (g_heap (b_g s)); [exact S|]. revert E.
  induction p as [|c p IH] using rev_ind; intros E; [reflexivity|]. unfold b_run in *. apply each_step in E as [E1 E2]. specialize (IH E1).
  rewrite fold_left_app. cbn [fold_left]. set (u := fold_left step p s) in *. intros m L. rewrite <- (IH m L).
  destruct (leads_shows _ _ _ L t S) as (v & V & _).
  assert (X : exists e, nth_error (g_heap (b_g u)) m = Some e) by (rewrite (IH m L); inversion V; eauto). destruct X as [e X]. rewrite X.
  destruct (E2 m L) as (H1 & H2 & H3). destruct c as [c|x st]; cycle 1.
  { cbn [b_step]. destruct (node_at (b_g u) x) as [[k [?|? ? ? ? ?]]|]; exact X. }
  destruct (refused settings u c) eqn:R; [now rewrite refused_heap|]. cbn [b_step]. rewrite R. cbn [b_g].
  destruct (receiver c) as [x|] eqn:RC; cycle 1.
  { apply g_untouched; [exact X|]. rewrite RC. discriminate. }
  assert (D : {g_var (b_g u) x = Some m} + {g_var (b_g u) x <> Some m}) by (decide equality; apply Nat.eq_dec).
  destruct D as [Vx|Vx]; cycle 1.
  { apply g_untouched; [exact X|]. rewrite RC. now intros x0 [= <-]. }
  assert (NA : node_at (b_g u) x = Some (m, e)) by (unfold node_at; now rewrite Vx, X).
  destruct c; cbn [receiver] in RC; try discriminate RC; injection RC as ->; unfold refused in R; cbn [stack_arg] in R;
    try (rewrite NA in R; assert (B : b_ro u m = true) by (apply H2; exists x; split; [exact Vx|]; eauto 6);
         rewrite B in R; destruct e; [|discriminate R]; cbn [g_step]; unfold on_stack; rewrite NA; exact X).
  - destruct H1. exists x, c. auto.
  - destruct H3 as [St B]; [exists x, b; auto|]. rewrite St, NA, B in R. destruct e; [|discriminate R]. cbn [g_step]. unfold on_stack. now rewrite NA.
  - destruct H3 as [St B]; [exists x, b; auto|]. rewrite St, NA, B in R. destruct e; [|discriminate R]. cbn [g_step]. unfold on_stack. now rewrite NA.
  - destruct H3 as [St B]; [exists x, b; auto|]. rewrite St, NA, B in R. destruct e; [|discriminate R]. cbn [g_step]. unfold on_stack. now rewrite NA.
Qed.
End Bind.
Lemma always_cons {S C} (step : S -> C -> S) s c p (P : S -> Prop) :
  P s -> always (fun s p => fold_left step p s) (step s c) p P -> always (fun s p => fold_left step p s) s (c :: p) P.
Proof. intros H A [|d q] r E; [exact H|]. cbn [app] in E. injection E as <- E. exact (A q r E). Qed.
Lemma always_nil {S C} (step : S -> C -> S) s (P : S -> Prop) : P s -> always (fun s p => fold_left step p s) s [] P.
Proof. intros H [|d q] r E; [exact H|discriminate E]. Qed.
Lemma each_cons {S C} (step : S -> C -> S) s c p (P : S -> C -> Prop) :
  P s c -> each (fun s p => fold_left step p s) (step s c) p P -> each (fun s p => fold_left step p s) s (c :: p) P.
Proof. intros H A [|d q] e r E; cbn [app] in E; injection E as -> E; [exact H|]. exact (A q e r E). Qed.
Lemma each_nil {S C} (step : S -> C -> S) s (P : S -> C -> Prop) : each (fun s p => fold_left step p s) s [] P.
Proof. intros [|d q] e r E; discriminate E. Qed.
Definition prog130 : list bstmt := (map BDo prog95 ++ [BReadOnly 3 None])%list.
(* the text of a read-only list can change: by a method of a rule taken from it, by a
   Push on a list inside it *)
Theorem C130_refuted : forall settings toggle,
  ~ (forall p q x n t, let s := b_run settings toggle b_start p in g_var (b_g s) x = Some n -> shows (g_heap (b_g s)) n t ->
       always (b_run settings toggle) s q (fun s => b_ro s n = true) -> shows (g_heap (b_g (b_run settings toggle s q))) n t) /\
  (forall q, q = [BDo (GIndex 5 3 0); BDo (GCall 5 (BExpression (Some (XText "164"))))] \/ q = [BDo (GPush 2 1)] ->
     exists p x n t t', let s := b_run settings toggle b_start p in g_var (b_g s) x = Some n /\ shows (g_heap (b_g s)) n t /\
       always (b_run settings toggle) s q (fun s => b_ro s n = true) /\ shows (g_heap (b_g (b_run settings toggle s q))) n t' /\
       forall topnot notsep, brs_string topnot notsep t <> brs_string topnot notsep t').
Proof.
  intros settings toggle.
  assert (X : forall q, q = [BDo (GIndex 5 3 0); BDo (GCall 5 (BExpression (Some (XText "164"))))] \/ q = [BDo (GPush 2 1)] ->
     exists p x n t t', let s := b_run settings toggle b_start p in g_var (b_g s) x = Some n /\ shows (g_heap (b_g s)) n t /\
       always (b_run settings toggle) s q (fun s => b_ro s n = true) /\ shows (g_heap (b_g (b_run settings toggle s q))) n t' /\
       forall topnot notsep, brs_string topnot notsep t <> brs_string topnot notsep t').
  { assert (V : forall s n t, tree_of 10 (g_heap (b_g s)) n = Some t -> shows (g_heap (b_g s)) n t) by (intros; now apply tree_of_shows with 10%nat).
    intros q [->| ->]; exists prog130, 3%nat, 3%nat; eexists; eexists; cbv zeta; (split; [now destruct settings, toggle|]);
      (split; [apply V; destruct settings, toggle; vm_compute; reflexivity|]);
      (split; [repeat first [apply always_cons|apply always_nil]; now destruct settings, toggle|]);
      (split; [apply V; destruct settings, toggle; vm_compute; reflexivity|]); intros [|] notsep; vm_compute; discriminate. }
  split; [|exact X]. intros F. destruct (X _ (or_intror eq_refl)) as (p & x & n & t & t' & G & S & A & S' & N). specialize (F p _ x n t G S A).
  apply (N false ""). f_equal. exact (det _ _ _ _ F S').
Qed.
Print Assumptions C129_bind.
Print Assumptions C129_refused.
Print Assumptions C129_bit.
Print Assumptions C129_new.
Print Assumptions C130_partial.
Print Assumptions C130_refuted.
(* bind_test.go:678-697, and the same through a copy; with the bit cleared it works *)
Example C129_witness : forall settings,
  let s := b_run settings true b_start prog130 in
  let q := [BDo (GCopy 6 3); BDo (GReplace 6 0 1); BDo (GPush 3 1); BDo (GPop 7 3)] in
  b_readonly s 3 /\ always (b_run settings true) s q (fun s => b_ro s 3 = true) /\
  nth_error (g_heap (b_g s)) 3 = Some (NStk WOr false false true [1; 2]%nat) /\
  nth_error (g_heap (b_g (b_run settings true s q))) 3 = Some (NStk WOr false false true [1; 2]%nat) /\
  g_var (b_g (b_run settings true s q)) 7 = None /\
  nth_error (g_heap (b_g (b_run settings true s (BReadOnly 3 (Some false) :: q)))) 3 = Some (NStk WOr false false true [1; 0]%nat).
Proof.
  intros settings. cbv zeta. split; [exists 3%nat; now destruct settings|]. split; [repeat first [apply always_cons|apply always_nil]; now destruct settings|].
  repeat apply conj; now destruct settings.
Qed.
(* with the inner list read-only too nothing changes what list 3 shows *)
Example C130_witness :
  let s := b_run true true b_start (prog130 ++ [BReadOnly 2 (Some true)])%list in
  let q := [BDo (GPush 2 1); BDo (GCopy 6 3); BDo (GParen 6 true); BDo (GPop 7 3); BDo (GRule 8 cC); BDo (GCall 8 (BParen true))] in
  var_shows (b_g s) 3 (Stk WOr false false true [Leaf cA; Stk WAnd false false true [Leaf rule0]]) /\
  each (b_run true true) s q (fun u c => forall m, leads (g_heap (b_g s)) 3 m -> held true u c m).
Proof.
  cbv zeta. split; [apply var_tree_shows; vm_compute; reflexivity|].
  assert (L : forall m, leads (g_heap (b_g (b_run true true b_start (prog130 ++ [BReadOnly 2 (Some true)])%list))) 3 m -> (m < 4)%nat).
  { intros m L. apply leads_shows with (t := Stk WOr false false true [Leaf cA; Stk WAnd false false true [Leaf rule0]]) in L as (u & U & _);
      [|apply tree_of_shows with 10%nat; vm_compute; reflexivity]. apply shows_lt in U. exact U. }
  repeat first [apply each_cons|apply each_nil]; intros m Lm; apply L in Lm; clear L; unfold held, asks_rule, asks_members, asks_setting;
    (split; [intros (x & k & V & E)|split; [intros (x & V & E)|intros (x & b & V & E)]]).
  all: repeat match goal with
       | E : _ \/ _ |- _ => destruct E as [E|E]
       | E : exists _, _ |- _ => destruct E as [? E]
       end; try discriminate E.
  all: try (injection E as <- <-); try (injection E as <- <- <-); vm_compute in V; injection V as <-; try (split; reflexivity); try reflexivity; try lia.
Qed.
