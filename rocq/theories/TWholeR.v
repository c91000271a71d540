(* C137: every method on shared objects does to its receiver what it does to values. *)
From Coq Require Import String Ascii List PeanoNat NArith ZArith Bool Lia.
From Verif Require Import GoStr GoStrFacts Shifty MMisc MKw MRights MLists MRule MConv MTree MHeap MAci SAci PAci TTree TAci MWhole SWhole SWholeR PTree PWhole PWholeV TWhole.
Import ListNotations.
Open Scope string_scope.

(* ---- permissions ---- *)
Theorem C137_perm_new : forall W s x d xs s', step W s (XPerm x d xs) = Some s' ->
  perm_v s' x = (if d then Allow else Deny) (e_shifty (w_env W)) xs /\ (forall y, y <> x -> s_var s' y = s_var s y) /\
  forall y n, s_var s y = Some n -> (n < List.length (s_heap s))%nat -> s_var s' x <> Some n.
Proof.
  intros W s x d xs s' H. cbn [step] in H. injection H as <-. unfold perm_v, perm_at, rd, fresh. cbn. rewrite upd_same, nth_snoc. split; [now destruct d|].
  split; [intros y N; now rewrite upd_other|]. intros y n _ L [= E]. lia.
Qed.
Theorem C137_perm_call : forall W s z x on xs s', step W s (XShift z x on xs) = Some s' ->
  perm_v s' z = (if on then perm_shift else perm_unshift) (e_shifty (w_env W)) (perm_v s x) xs /\
  perm_v s' x = perm_v s' z /\ (perm_v s x <> PNil -> s_var s' z = s_var s x) /\ (forall y, y <> z -> s_var s' y = s_var s y).
Proof.
  intros W s z x on xs s' H. cbn [step] in H. unfold at_var in H. unfold perm_v, perm_at, rd in *.
  assert (Z : match s_var s x with Some n => match nth_error (s_heap s) n with Some (NPerm _ _) => False | _ => True end | None => True end -> Some (with_var s z None) = Some s' ->
    match match s_var s' z with Some n => nth_error (s_heap s') n | None => None end with Some (NPerm d v) => PSome d v | _ => PNil end =
      (if on then perm_shift else perm_unshift) (e_shifty (w_env W)) (match match s_var s x with Some n => nth_error (s_heap s) n | None => None end with Some (NPerm d v) => PSome d v | _ => PNil end) xs /\
    match match s_var s' x with Some n => nth_error (s_heap s') n | None => None end with Some (NPerm d v) => PSome d v | _ => PNil end =
    match match s_var s' z with Some n => nth_error (s_heap s') n | None => None end with Some (NPerm d v) => PSome d v | _ => PNil end /\
    (match match s_var s x with Some n => nth_error (s_heap s) n | None => None end with Some (NPerm d v) => PSome d v | _ => PNil end <> PNil -> s_var s' z = s_var s x) /\ (forall y, y <> z -> s_var s' y = s_var s y)).
  { intros F [= <-]. cbn. rewrite upd_same. assert (P : match match s_var s x with Some n => nth_error (s_heap s) n | None => None end with Some (NPerm d v) => PSome d v | _ => PNil end = PNil).
    { destruct (s_var s x) as [n|]; [|reflexivity]. destruct (nth_error (s_heap s) n) as [d|]; [|reflexivity]. destruct d; try reflexivity. destruct F. }
    rewrite P. split; [now destruct on|]. split; [|split; [now intros []|intros y N; now rewrite upd_other]].
    destruct (Nat.eq_dec x z) as [->|N]; [now rewrite upd_same|]. rewrite upd_other by exact N. exact P. }
  destruct (s_var s x) as [n|] eqn:V; [|now apply Z]. destruct (nth_error (s_heap s) n) as [d|] eqn:E; [|now apply Z]. destruct d; try now apply Z. clear Z. injection H as <-. cbn.
  pose proof (nth_lt _ _ _ E) as L. rewrite upd_same, wr_same by exact L. split; [now destruct on|]. split; [|split; [reflexivity|intros y N; now rewrite upd_other]].
  destruct (Nat.eq_dec x z) as [->|N]; [rewrite upd_same; now rewrite wr_same|]. rewrite upd_other by exact N. rewrite V. now rewrite wr_same.
Qed.

(* ---- rules ---- *)
Lemma br_step_some c k : br_step (Some c) k <> None.
Proof. destruct k; cbn; unfold br_set_keyword, br_set_operator, br_set_expression, br_paren, br_nopadding, br_set_quote_style; intros H;
  repeat match type of H with context [match ?e with _ => _ end] => destruct e end; discriminate H. Qed.
Lemma tr_step_some c k : tr_step (Some c) k <> None.
Proof. destruct k; cbn; unfold tr_set_keyword, tr_set_operator, tr_set_expression, tr_nopadding, tr_set_quote_style; intros H;
  repeat match type of H with context [match ?e with _ => _ end] => destruct e end; discriminate H. Qed.
(* on a rule the result is the rule itself, changed; on a zero value it is new, and Init
   gives it to the variable, too *)
Theorem C137_rule : forall W s z x k s', step W s (XCall z x k) = Some s' -> (forall n, s_var s x = Some n -> rule_v s x <> None) ->
  rule_v s' z = br_step (rule_v s x) k /\
  (rule_v s x <> None -> s_var s' z = s_var s x) /\
  (rule_v s x = None -> forall n, s_var s' z = Some n -> (List.length (s_heap s) <= n)%nat) /\
  (x <> z -> s_var s' x = match rule_v s x, k with None, BInit => s_var s' z | _, _ => s_var s x end).
Proof.
  intros W s z x k s' H T. cbn [step] in H. injection H as <-. unfold bind_call, at_var. unfold rule_v, rule_at, rd in *. destruct (s_var s x) as [n|] eqn:V.
  - specialize (T n eq_refl). destruct (nth_error (s_heap s) n) as [d|] eqn:E; [|now destruct T]. destruct d as [|c| | | | | | |]; try now destruct T.
    pose proof (nth_lt _ _ _ E) as L. destruct (br_step (Some c) k) as [c'|] eqn:B; [|now destruct (br_step_some c k)]. cbn. rewrite upd_same, wr_same by exact L.
    split; [reflexivity|]. split; [reflexivity|]. split; [discriminate|]. intros N. now rewrite upd_other.
  - cbn. destruct (br_step None k) as [c|] eqn:B.
    + assert (Q : let s' := fresh (match k with BInit => with_var s x (Some (List.length (s_heap s))) | _ => s end) z (NBind c) in
        s_heap s' = (s_heap s ++ [NBind c])%list /\ s_var s' z = Some (List.length (s_heap s)) /\ (x <> z -> s_var s' x = match k with BInit => Some (List.length (s_heap s)) | _ => None end)).
      { destruct k; cbn; rewrite upd_same; (split; [reflexivity|]); (split; [reflexivity|]); intros N; rewrite upd_other by exact N; try exact V. now rewrite upd_same. }
      cbn zeta in Q. destruct Q as (Q1 & Q2 & Q3). rewrite Q1, Q2, nth_snoc. split; [reflexivity|]. split; [now intros []|]. split; [intros _ n [= <-]; lia|]. intros N. rewrite (Q3 N). now destruct k.
    + cbn. rewrite upd_same. split; [reflexivity|]. split; [now intros []|]. split; [discriminate|]. intros N. rewrite upd_other by exact N. rewrite V. destruct k; reflexivity || (cbn in B; discriminate).
Qed.
Theorem C137_target : forall W s z x k s', step W s (XTCall z x k) = Some s' -> (forall n, s_var s x = Some n -> target_v s x <> None) ->
  target_v s' z = tr_step (target_v s x) k /\
  (target_v s x <> None -> s_var s' z = s_var s x) /\
  (target_v s x = None -> forall n, s_var s' z = Some n -> (List.length (s_heap s) <= n)%nat) /\
  (x <> z -> s_var s' x = match target_v s x, k with None, TInit => s_var s' z | _, _ => s_var s x end).
Proof.
  intros W s z x k s' H T. cbn [step] in H. injection H as <-. unfold target_call, at_var. unfold target_v, tr_at in *. destruct (s_var s x) as [n|] eqn:V.
  - specialize (T n eq_refl). destruct (nth_error (s_heap s) n) as [d|] eqn:E; [|now destruct T]. destruct d as [| | | | |c| | |]; try now destruct T.
    pose proof (nth_lt _ _ _ E) as L. destruct (tr_step (Some c) k) as [c'|] eqn:B; [|now destruct (tr_step_some c k)]. cbn. rewrite upd_same, wr_same by exact L.
    split; [reflexivity|]. split; [reflexivity|]. split; [discriminate|]. intros N. now rewrite upd_other.
  - cbn. destruct (tr_step None k) as [c|] eqn:B.
    + assert (Q : let s' := fresh (match k with TInit => with_var s x (Some (List.length (s_heap s))) | _ => s end) z (NTr c) in
        s_heap s' = (s_heap s ++ [NTr c])%list /\ s_var s' z = Some (List.length (s_heap s)) /\ (x <> z -> s_var s' x = match k with TInit => Some (List.length (s_heap s)) | _ => None end)).
      { destruct k; cbn; rewrite upd_same; (split; [reflexivity|]); (split; [reflexivity|]); intros N; rewrite upd_other by exact N; try exact V. now rewrite upd_same. }
      cbn zeta in Q. destruct Q as (Q1 & Q2 & Q3). rewrite Q1, Q2, nth_snoc. split; [reflexivity|]. split; [now intros []|]. split; [intros _ n [= <-]; lia|]. intros N. rewrite (Q3 N). now destruct k.
    + cbn. rewrite upd_same. split; [reflexivity|]. split; [now intros []|]. split; [discriminate|]. intros N. rewrite upd_other by exact N. rewrite V. destruct k; reflexivity || (cbn in B; discriminate).
Qed.
Theorem C137_new_rules : forall W s x c s', (step W s (XRule x c) = Some s' -> rule_v s' x = Some c) /\ (step W s (XTr x c) = Some s' -> target_v s' x = Some c).
Proof. intros W s x c s'. split; cbn [step]; intros [= <-]; unfold rule_v, rule_at, rd, target_v, tr_at; cbn; now rewrite upd_same, nth_snoc. Qed.

(* ---- stacks of bind rules ---- *)
Lemma tree_here h f n t : tree_at f h n = Some t -> exists g, forall h' , same_from h h' n -> (List.length h <= List.length h')%nat -> tree_at g h' n = Some t /\ tree_at (List.length h') h' n = Some t.
Proof.
  intros H. exists f. intros h' S L. rewrite (tree_frame h h' f n S). split; [exact H|]. rewrite (tree_frame h h' _ n S). eapply tree_more; [eapply tree_deep; exact H|exact L].
Qed.
(* nothing inside a finite stack leads back to it *)
Lemma inside_smaller h : forall n m, leads h n m -> forall f t, tree_at f h n = Some t -> exists g u, tree_at g h m = Some u /\ (tsz u <= tsz t)%nat.
Proof.
  intros n m D. induction D as [n|n d k m E K D IH]; intros f t H; [eauto|]. destruct f as [|f]; [discriminate|]. cbn [tree_at] in H. rewrite E in H.
  destruct d as [| |w p fo b ks| | | | | |]; try discriminate; [destruct K|]. destruct (all (map (tree_at f h) ks)) as [ts|] eqn:A; [|discriminate]. injection H as <-.
  cbn [kids] in K. destruct (all_map_in _ _ _ A k K) as (u & U & IU). destruct (IH f u U) as (g & v & G & L). exists g, v. split; [exact G|]. pose proof (tsz_in u ts IU). cbn. lia.
Qed.
Lemma no_loop h n w p fo b ks f t k : nth_error h n = Some (NStk w p fo b ks) -> tree_at f h n = Some t -> In k ks -> ~ leads h k n.
Proof.
  intros E H K D. destruct f as [|f]; [discriminate|]. pose proof H as H0. cbn [tree_at] in H. rewrite E in H. destruct (all (map (tree_at f h) ks)) as [ts|] eqn:A; [|discriminate]. injection H as <-.
  destruct (all_map_in _ _ _ A k K) as (u & U & IU). destruct (inside_smaller h k n D f u U) as (g & v & G & L). pose proof (tree_more _ _ _ _ H0 (S f + g) ltac:(lia)) as X.
  pose proof (tree_more _ _ _ _ G (S f + g) ltac:(lia)) as Y. rewrite X in Y. injection Y as <-. pose proof (tsz_in u ts IU). cbn in L. lia.
Qed.
Lemma same_wr h n e k : ~ leads h k n -> same_from h (wr h n e) k.
Proof. intros N m D. apply wr_other. intros ->. exact (N D). Qed.
(* the shape of a stack *)
Lemma stack_parts h n t : tree_at (List.length h) h n = Some t -> is_stack t -> exists w p fo b ks ts, nth_error h n = Some (NStk w p fo b ks) /\ t = Stk w p fo b ts /\
  all (map (tree_at (List.length h) h) ks) = Some ts /\ (n < List.length h)%nat /\ forall k, In k ks -> ~ leads h k n.
Proof.
  intros H I. pose proof H as H0. assert (L : (n < List.length h)%nat).
  { destruct (List.length h) as [|f] eqn:LL; [discriminate|]. cbn [tree_at] in H. destruct (nth_error h n) as [d|] eqn:E; [|discriminate]. apply nth_lt in E. lia. }
  revert H. destruct (List.length h) as [|f] eqn:LL; [discriminate|]. intros H. cbn [tree_at] in H. destruct (nth_error h n) as [d|] eqn:E; [|discriminate].
  destruct d as [|c|w p fo b ks| | | | | |]; try discriminate; [injection H as <-; destruct I|]. destruct (all (map (tree_at f h) ks)) as [ts|] eqn:A; [|discriminate]. injection H as <-.
  exists w, p, fo, b, ks, ts. split; [reflexivity|]. split; [reflexivity|]. split; [|split; [exact L|]].
  - eapply all_map_ext; [exact A|]. intros x y _ _ X. apply (tree_more _ _ _ _ X). lia.
  - intros k K. eapply no_loop; [exact E|exact H0|exact K].
Qed.
Lemma stack_write h n w p fo b ks ts : (n < List.length h)%nat -> (forall k, In k ks -> ~ leads h k n) -> all (map (tree_at (List.length h) h) ks) = Some ts ->
  tree_at (List.length (wr h n (NStk w p fo b ks))) (wr h n (NStk w p fo b ks)) n = Some (Stk w p fo b ts).
Proof.
  intros L N A. apply (tree_deep _ (S (List.length h))). cbn [tree_at]. rewrite wr_same by exact L. rewrite (all_map_ext _ (tree_at (List.length h) (wr h n (NStk w p fo b ks))) _ _ A); [reflexivity|].
  intros k t K _ T. rewrite (tree_frame h); [exact T|]. apply same_wr. now apply N.
Qed.
Theorem C137_stack_new : forall W s x w pad s' stop, step W s (XStack x w pad) = Some s' -> tree_v s' x = Some (brs_new stop pad w []).
Proof.
  intros W s x w pad s' stop [= <-]. unfold tree_v. cbn. rewrite upd_same, app_length. cbn. rewrite Nat.add_1_r. cbn [tree_at]. now rewrite nth_snoc.
Qed.
(* Push: the member is not a stack the receiver is in *)
Theorem C137_stack_push : forall W s x n y m t u s', step W s (XPush x y) = Some s' -> s_var s x = Some n -> tree_v s x = Some t -> is_stack t ->
  s_var s y = Some m -> tree_v s y = Some u -> ~ leads (s_heap s) m n -> s_var s' = s_var s /\ tree_v s' x = Some (brs_push (w_stop W) t [pushed u]).
Proof.
  intros W s x n y m t u s' H V T I Vy U N. unfold tree_v in T, U. rewrite V in T. rewrite Vy in U. destruct (stack_parts _ _ _ T I) as (w & p & fo & b & ks & ts & E & -> & A & L & NL).
  assert (UM : exists e, nth_error (s_heap s) m = Some e /\ (acceptable e = true -> brs_push1 ts (pushed u) = (ts ++ [u])%list) /\ (acceptable e = false -> brs_push1 ts (pushed u) = ts)).
  { destruct (List.length (s_heap s)) as [|f]; [discriminate|]. cbn [tree_at] in U. destruct (nth_error (s_heap s) m) as [e|]; [|discriminate]. exists e. split; [reflexivity|].
    destruct e as [|c|w1 p1 f1 b1 k1| | | | | |]; try discriminate U; [injection U as <-|destruct (all _); [injection U as <-|discriminate U]]; cbn; [|split; [reflexivity|discriminate]].
    destruct (negb _); (split; [|]); intros; reflexivity || discriminate. }
  destruct UM as (e & Em & AT & AF). cbn [step] in H. unfold accepted, at_var in H. rewrite Vy, Em in H. cbn [brs_push push_many].
  destruct (acceptable e) eqn:AC; injection H as <-.
  - rewrite AT by reflexivity. unfold on_stack, at_var. rewrite V, E. cbn [s_var with_node s_heap]. split; [reflexivity|]. unfold tree_v. cbn [with_node with_var s_var s_heap]. rewrite V.
    rewrite (stack_write _ _ w p fo b (ks ++ [m])%list (ts ++ [u])%list); [now destruct (w_stop W && _)%bool|exact L| |].
    + intros k K. apply in_app_iff in K as [K|[<-|[]]]; [now apply NL|exact N].
    + rewrite map_app. apply all_app; [exact A|]. cbn [map all]. now rewrite U.
  - rewrite AF by reflexivity. split; [reflexivity|]. unfold tree_v. rewrite V, T. now destruct (w_stop W && _)%bool.
Qed.
(* a stack pushed into itself, or into a stack inside it, has no text any more *)
Theorem C137_stack_endless : forall W s x n y m s' u, step W s (XPush x y) = Some s' -> s_var s x = Some n -> s_var s y = Some m -> tree_v s x = Some u -> is_stack u ->
  (exists e, nth_error (s_heap s) m = Some e /\ acceptable e = true) -> leads (s_heap s) m n -> shown W s' x = None.
Proof.
  intros W s x n y m s' u H V Vy U I (e & Em & AC) D. unfold tree_v in U. rewrite V in U. destruct (stack_parts _ _ _ U I) as (w & p & fo & b & ks & ts & E & -> & A & L & NL).
  cbn [step] in H. unfold accepted, at_var in H. rewrite Vy, Em, AC in H. unfold on_stack, at_var in H. rewrite V, E in H. injection H as <-.
  unfold shown. cbn [s_var with_node s_heap]. rewrite V. set (h' := wr (s_heap s) n (NStk w p fo b (ks ++ [m])%list)). assert (E' : nth_error h' n = Some (NStk w p fo b (ks ++ [m])%list)) by (now apply wr_same).
  unfold text_at. rewrite E'. assert (D' : leads h' m n).
  { clear - D L. unfold h'. generalize (NStk w p fo b (ks ++ [m])%list). intros e'. induction D as [k|k d j q E J D IH]; [constructor|]. destruct (Nat.eq_dec k q) as [->|N]; [constructor|].
    eapply L_down; [rewrite wr_other by congruence; exact E|exact J|now apply IH]. }
  destruct (tree_at (List.length h') h' n) as [t|] eqn:T; [|reflexivity]. exfalso. eapply (no_loop h' n); [exact E'|exact T| |exact D']. apply in_app_iff. right. now left.
Qed.
Theorem C137_stack_pop : forall W s z x n t s', step W s (XPop z x) = Some s' -> s_var s x = Some n -> tree_v s x = Some t -> is_stack t ->
  tree_at (List.length (s_heap s')) (s_heap s') n = Some (brs_pop t) /\ tree_v s' z = nth_error (members t) (pred (List.length (members t))) /\
  forall y, y <> z -> s_var s' y = s_var s y.
Proof.
  intros W s z x n t s' H V T I. unfold tree_v in T. rewrite V in T. destruct (stack_parts _ _ _ T I) as (w & p & fo & b & ks & ts & E & -> & A & L & NL).
  cbn [step] in H. unfold at_var in H. rewrite V, E in H. injection H as <-. cbn [s_heap with_var with_node s_var members brs_pop]. split; [|split].
  - apply stack_write; [exact L|intros k K; apply NL; now apply removelast_in in K|]. now apply all_pop.
  - unfold tree_v. cbn [with_node with_var s_var s_heap]. rewrite upd_same. assert (LL : List.length ts = List.length ks) by (apply all_some in A; apply (f_equal (@List.length _)) in A; rewrite !map_length in A; congruence).
    rewrite LL. unfold last_ref. destruct (nth_error ks (pred (List.length ks))) as [k|] eqn:K.
    + apply all_some in A. apply (f_equal (fun l => nth_error l (pred (List.length ks)))) in A. rewrite (map_nth_error _ _ _ K) in A. rewrite nth_error_map in A.
      destruct (nth_error ts (pred (List.length ks))) as [u|]; [|discriminate]. cbn in A. injection A as A. rewrite wr_len. rewrite <- A. apply tree_frame. apply same_wr. apply NL. eapply nth_error_In; eauto.
    + apply nth_error_None in K. symmetry. apply nth_error_None. lia.
  - intros y N. now apply upd_other.
Qed.
Theorem C137_stack_index : forall W s z x i t s', step W s (XIndex z x i) = Some s' -> tree_v s x = Some t ->
  s_heap s' = s_heap s /\ tree_v s' z = match t with Leaf _ => Some t | _ => nth_error (members t) i end.
Proof.
  intros W s z x i t s' [= <-] T. split; [reflexivity|]. unfold tree_v in *. cbn [with_var s_var s_heap]. rewrite upd_same. unfold at_var. destruct (s_var s x) as [n|]; [|discriminate].
  destruct t as [c|w p fo b ts].
  - destruct (List.length (s_heap s)) as [|f] eqn:LL; [discriminate|]. pose proof T as T0. cbn [tree_at] in T. destruct (nth_error (s_heap s) n) as [d|]; [|discriminate].
    destruct d as [|c1|w1 p1 f1 b1 k1| | | | | |]; try discriminate; [exact T0|]. destruct (all _); discriminate.
  - destruct (stack_parts _ _ _ T Logic.I) as (w1 & p1 & f1 & b1 & ks & ts1 & E & [= <- <- <- <- <-] & A & L & NL). rewrite E. cbn [members]. apply all_some in A.
    apply (f_equal (fun l => nth_error l i)) in A. rewrite !nth_error_map in A. destruct (nth_error ks i) as [k|]; destruct (nth_error ts i) as [u|]; cbn in A; try discriminate; [now injection A|reflexivity].
Qed.
Theorem C137_stack_replace : forall W s x n y m i t u s', step W s (XReplace x y i) = Some s' -> s_var s x = Some n -> tree_v s x = Some t -> is_stack t ->
  s_var s y = Some m -> tree_v s y = Some u -> ~ leads (s_heap s) m n ->
  s_var s' = s_var s /\ tree_v s' x = Some (match t with
    | Stk w p f d ks => if (List.length (brs_push1 [] (pushed u)) =? 1)%nat then Stk w p f d (firstn i ks ++ match skipn i ks with [] => [] | _ :: r => u :: r end)%list else t
    | Leaf _ => t end).
Proof.
  intros W s x n y m i t u s' H V T I Vy U N. unfold tree_v in T, U. rewrite V in T. rewrite Vy in U. destruct (stack_parts _ _ _ T I) as (w & p & fo & b & ks & ts & E & -> & A & L & NL).
  assert (UM : exists e, nth_error (s_heap s) m = Some e /\ (List.length (brs_push1 [] (pushed u)) =? 1)%nat = acceptable e).
  { destruct (List.length (s_heap s)) as [|f]; [discriminate|]. cbn [tree_at] in U. destruct (nth_error (s_heap s) m) as [e|]; [|discriminate]. exists e. split; [reflexivity|].
    destruct e as [|c|w1 p1 f1 b1 k1| | | | | |]; try discriminate U; [injection U as <-|destruct (all _); [injection U as <-; reflexivity|discriminate U]]; cbn. now destruct (negb _). }
  destruct UM as (e & Em & AT). rewrite AT. cbn [step] in H. unfold accepted, at_var in H. rewrite Vy, Em in H. destruct (acceptable e); injection H as <-.
  - unfold on_stack, at_var. rewrite V, E. cbn [s_var with_node s_heap]. split; [reflexivity|]. unfold tree_v. cbn [with_node with_var s_var s_heap]. rewrite V.
    assert (WR : forall {B} (l : list B) i a, wr l i a = (firstn i l ++ match skipn i l with [] => [] | _ :: r => a :: r end)%list).
    { intros B. induction l as [|a0 l IH]; intros [|j] a; cbn; [reflexivity|reflexivity|reflexivity|]. now rewrite IH. }
    apply stack_write; [exact L| |].
    + intros k K. apply wr_in in K as [->|K]; [exact N|now apply NL].
    + rewrite <- WR. clear - A U. apply all_some. apply all_some in A. revert ts i A. induction ks as [|k ks IH]; intros [|t ts] [|i] A; cbn in A |- *; try discriminate; [reflexivity|reflexivity| |].
      * injection A as A1 A2. now rewrite U, A2.
      * injection A as A1 A2. rewrite A1. f_equal. now apply IH.
  - split; [reflexivity|]. unfold tree_v. now rewrite V.
Qed.
Theorem C137_stack_settings : forall W s x n t s' b, s_var s x = Some n -> tree_v s x = Some t -> is_stack t ->
  (step W s (XParen x b) = Some s' -> s_var s' = s_var s /\ tree_v s' x = Some (brs_paren b t)) /\
  (step W s (XFold x b) = Some s' -> s_var s' = s_var s /\ tree_v s' x = Some (brs_fold b t)) /\
  (step W s (XNoPad x b) = Some s' -> s_var s' = s_var s /\ tree_v s' x = Some (brs_nopadding b t)).
Proof.
  intros W s x n t s' b V T I. unfold tree_v in T. rewrite V in T. destruct (stack_parts _ _ _ T I) as (w & p & fo & q & ks & ts & E & -> & A & L & NL).
  repeat apply conj; cbn [step]; unfold on_stack, at_var; rewrite V, E; intros [= <-]; (split; [reflexivity|]); unfold tree_v; cbn [s_var s_heap with_node]; rewrite V; now apply stack_write.
Qed.

(* ---- permission-bind rules ---- *)
Section Pb.
Variables (h : heap) (n : nat) (p p' : option nat) (b b' : option bref).
Hypothesis E : nth_error h n = Some (NPbr p b).
Let h' := wr h n (NPbr p' b').
Lemma pb_tree : forall f m, tree_at f h' m = tree_at f h m.
Proof.
  induction f as [|f IH]; intros m; [reflexivity|]. cbn [tree_at]. unfold h'. destruct (Nat.eq_dec m n) as [->|N].
  - rewrite wr_same by (now apply nth_lt in E). now rewrite E.
  - rewrite wr_other by exact N. destruct (nth_error h m) as [d|]; [|reflexivity]. destruct d; try reflexivity. now rewrite (map_ext _ _ IH).
Qed.
Lemma pb_perm q : perm_at h' q = perm_at h q.
Proof. unfold perm_at, rd, h'. destruct q as [m|]; [|reflexivity]. destruct (Nat.eq_dec m n) as [->|N]; [|now rewrite wr_other]. rewrite wr_same by (now apply nth_lt in E). now rewrite E. Qed.
Lemma pb_bctx q : bctx_at h' q = bctx_at h q.
Proof.
  destruct q as [| |m]; try reflexivity. cbn [bctx_at]. rewrite pb_tree. replace (List.length h') with (List.length h) by (unfold h'; now rewrite wr_len). unfold h'.
  destruct (Nat.eq_dec m n) as [->|N]; [|now rewrite wr_other]. rewrite wr_same by (now apply nth_lt in E). now rewrite E.
Qed.
End Pb.
Lemma bval_ref h v a n : (forall x, ref_in h (v x)) -> bval v a = Some (BRef n) -> (n < List.length h)%nat.
Proof. intros V H. destruct a as [|x|x]; cbn in H; [discriminate| |]; destruct (v x) as [m|] eqn:X; try discriminate; injection H as <-; now apply (V x). Qed.
Lemma bind_v_ref s b c : bind_v s b = Some (Some c) -> exists r, bval (s_var s) b = Some r /\ bctx_at (s_heap s) r = Some c.
Proof.
  destruct b as [|x|x]; cbn; [discriminate| |]; (destruct (s_var s x) as [n|]; [|intros [= <-]; eexists; split; reflexivity]);
  intros H; exists (BRef n); (split; [reflexivity|]); cbn; match type of H with option_map _ ?e = _ => destruct e; [now injection H as ->|discriminate] end.
Qed.
Lemma bind_v_none s b : bind_v s b = Some None -> bval (s_var s) b = None.
Proof. destruct b as [|x|x]; cbn [bind_v]; [reflexivity| |]; (destruct (s_var s x); [|discriminate]); match goal with |- option_map _ ?e = _ -> _ => destruct e; discriminate end. Qed.
Lemma bref_valid_ctx h r c : bctx_at h r = Some c -> bref_valid h r = bctx_valid c.
Proof.
  destruct r as [| |n]; cbn; try (intros [= <-]; reflexivity). destruct (nth_error h n) as [d|] eqn:E; [|now destruct (tree_at _ h n) as [t|] eqn:T;
    [destruct (List.length h); [discriminate|cbn in T; rewrite E in T; discriminate]|discriminate]].
  destruct d as [|c0|w p f b ks| | | | | |]; try (intros [= <-]; reflexivity); destruct (tree_at (List.length h) h n) as [t|] eqn:T; try discriminate; intros [= <-];
    (destruct (List.length h); [discriminate|]; cbn in T; rewrite E in T); try discriminate T. destruct (all _); [|discriminate]. now injection T as <-.
Qed.
Lemma pset_value W s : wf s -> forall xs h p b r vs, grown (s_heap s) h -> ref_in h p -> bref_in h b -> perm_at h p = pb_p r -> holds h b (pb_b r) -> all (map (parg_v s) xs) = Some vs ->
  match pset W (s_var s) h p b xs with
  | Some (h', p', b') => exists r', pbrec_set W r vs = Some r' /\ perm_at h' p' = pb_p r' /\ holds h' b' (pb_b r')
  | None => pbrec_set W r vs = None
  end.
Proof.
  intros [C0 V0]. induction xs as [|x xs IH]; intros h p b r vs G R B P H A; cbn [map all] in A; [injection A as <-; cbn; eauto|].
  destruct (parg_v s x) as [v|] eqn:X; [|discriminate]. destruct (all (map (parg_v s) xs)) as [vt|] eqn:VT; [|discriminate]. injection A as <-.
  assert (Z : exists r', Some r = Some r' /\ perm_at h p = pb_p r' /\ holds h b (pb_b r')) by eauto.
  destruct x as [t|x|a|]; cbn [parg_v] in X; cbn [pset].
  - injection X as <-. cbn [pbrec_set]. destruct (parsePBR W t) as [| |[y|]] eqn:Q; [reflexivity|exact Z| |exact Z]. pose proof (grown_closed _ _ G) as C. pose proof (alloc_parts_ok y h C) as AP.
    destruct (alloc_parts h y) as [[h1 p1] b1]. destruct AP as (G1 & R1 & B1 & P1 & H1). apply IH; auto; [eapply grown_trans; eauto|]. apply H1.
    unfold parsePBR in Q. destruct (w_pbr W t); [|discriminate]. now apply processPBR_good in Q.
  - injection X as <-. cbn [pbrec_set]. assert (PX : perm_at h (s_var s x) = perm_v s x) by (apply perm_old; [exact G|intros m M; now apply (V0 x)]). rewrite PX.
    destruct (perm_valid (perm_v s x)); [|exact Z]. apply IH; auto. intros m M. apply V0 in M. apply grown_len in G. lia.
  - destruct (bind_v s a) as [c|] eqn:BV; [|discriminate]. injection X as <-. destruct c as [c|].
    + destruct (bind_v_ref _ _ _ BV) as (q & Q & D). rewrite Q. cbn [pbrec_set].
      assert (RQ : bref_in (s_heap s) (Some q)) by (intros m [= ->]; eapply bval_ref; [|exact Q]; intros x m'; apply V0).
      assert (DH : bctx_at h q = Some c) by (rewrite (bctx_old (s_heap s) h); assumption). rewrite (bref_valid_ctx _ _ _ DH). destruct (bctx_valid c); [|exact Z].
      apply IH; auto. intros m M. apply RQ in M. apply grown_len in G. lia.
    + rewrite (bind_v_none s a BV). cbn [pbrec_set]. now apply IH.
  - injection X as <-. cbn [pbrec_set]. now apply IH.
Qed.
Theorem C137_pbr_new : forall W s r p b c s', reached W s -> step W s (XPbr r p b) = Some s' -> bind_v s b = Some c -> pbr_v s' r = Some (PBR (perm_v s p) c).
Proof.
  intros W s r p b c s' R [= <-] BV. pose proof (reached_wf W s R) as [C V]. unfold PBR, pbr_valid, perm_v. destruct c as [c|].
  - destruct (bind_v_ref _ _ _ BV) as (q & Q & D). rewrite Q. assert (RQ : bref_in (s_heap s) (Some q)) by (intros m [= ->]; eapply bval_ref; [|exact Q]; intros x m'; apply V).
    assert (RP : ref_in (s_heap s) (s_var s p)) by (intros m M; now apply (V p)). cbn [pb_p pb_b].
    destruct (perm_at (s_heap s) (s_var s p)) as [|d v] eqn:P; cbn; unfold pbr_v; cbn; rewrite upd_same; [reflexivity|].
    assert (G : grown (s_heap s) (s_heap s ++ [NPbr (s_var s p) (Some q)])%list) by (apply grown_snoc; [exact C|]; now apply kids_pbr).
    rewrite (pbr_at_new (s_heap s) _ _ (s_var s p) (Some q) (MkPB (PSome d v) (Some c))); auto using nth_snoc.
  - rewrite (bind_v_none s b BV).
    unfold pbr_v. cbn. rewrite upd_same. destruct (perm_at (s_heap s) (s_var s p)); reflexivity.
Qed.
(* Set panics exactly when it does on values; on a rule that is not zero it changes the
   object, otherwise the variable gets a new one *)
Theorem C137_pbr_set : forall W s r v xs vs, reached W s -> pbr_v s r = Some v -> all (map (parg_v s) xs) = Some vs ->
  match step W s (XSetPbr r xs) with
  | Some s' => pbr_set W v vs = match pbr_v s' r with Some v' => Some v' | None => None end /\ pbr_v s' r <> None /\
      (pbr_isZero v = false -> s_var s' = s_var s) /\ (pbr_isZero v = true -> forall n, s_var s' r = Some n -> (List.length (s_heap s) <= n)%nat)
  | None => pbr_set W v vs = None
  end.
Proof.
  intros W s r v xs vs R Pv A. pose proof (reached_wf W s R) as Wf. pose proof Wf as [C V]. cbn [step]. unfold set_pbr, pbr_set.
  assert (NEW : pbr_isZero v = true -> match (match pset W (s_var s) (s_heap s) None None xs with
     | Some (h, p, b) => Some (MkS (h ++ [NPbr p b])%list (upd (s_var s) r (Some (List.length h)))) | None => None end) with
    | Some s' => match pbrec_set W (MkPB PNil None) vs with Some x => Some (Some x) | None => None end = match pbr_v s' r with Some v' => Some v' | None => None end /\ pbr_v s' r <> None /\
      (pbr_isZero v = false -> s_var s' = s_var s) /\ (pbr_isZero v = true -> forall n, s_var s' r = Some n -> (List.length (s_heap s) <= n)%nat)
    | None => match pbrec_set W (MkPB PNil None) vs with Some x => Some (Some x) | None => None end = None end).
  { intros ZV. pose proof (pset_value W s Wf xs (s_heap s) None None (MkPB PNil None) vs (grown_refl _ C) ltac:(intros ? [=]) ltac:(intros ? [=]) eq_refl Logic.I A) as PS.
    destruct (pset W (s_var s) (s_heap s) None None xs) as [[[h p] b]|] eqn:Q; [|now rewrite PS]. destruct PS as (r' & -> & P & H).
    destruct (pset_ok W (s_var s) xs (s_heap s) None None h p b C (fun x m => V x m) ltac:(intros ? [=]) ltac:(intros ? [=]) Q) as (G & RP & RB).
    assert (X : pbr_v (MkS (h ++ [NPbr p b])%list (upd (s_var s) r (Some (List.length h)))) r = Some (Some r')).
    { unfold pbr_v. cbn. rewrite upd_same. rewrite (pbr_at_new h _ _ p b r'); auto using nth_snoc. - eapply grown_closed; eauto. - apply grown_snoc; [eapply grown_closed; eauto|now apply kids_pbr]. }
    rewrite X. split; [reflexivity|]. split; [discriminate|]. split; [congruence|]. intros _ n. cbn. rewrite upd_same. intros [= <-]. now apply grown_len in G. }
  unfold pbr_v in Pv. unfold at_var. destruct (s_var s r) as [n|] eqn:Vr.
  2: { injection Pv as <-. cbn [pbr_isZero]. now apply NEW. }
  destruct (pbr_at (s_heap s) n) as [x|] eqn:PA; [|discriminate]. injection Pv as <-. unfold pbr_at in PA. destruct (nth_error (s_heap s) n) as [d|] eqn:E; [|discriminate]. destruct d as [| | |p b| | | | |]; try discriminate.
  assert (X : perm_at (s_heap s) p = pb_p x /\ holds (s_heap s) b (pb_b x)) by (destruct b as [b|]; [destruct (bctx_at (s_heap s) b) eqn:B; [|discriminate]|]; injection PA as <-; split; cbn; auto).
  destruct X as [P H]. assert (ZE : zero_parts (s_heap s) p b = pbr_isZero (Some x)).
  { unfold zero_parts. cbn. rewrite P. destruct x as [px bx]. cbn [pb_p pb_b] in *. destruct b, bx; try contradiction; reflexivity. }
  rewrite ZE. destruct (pbr_isZero (Some x)) eqn:ZX; [now apply NEW|]. clear NEW.
  assert (RP : ref_in (s_heap s) p) by (intros m ->; apply (C _ _ m E); now left).
  assert (RB : bref_in (s_heap s) b) by (intros m ->; apply (C _ _ m E); cbn; apply in_app_iff; right; now left).
  pose proof (pset_value W s Wf xs (s_heap s) p b x vs (grown_refl _ C) RP RB P H A) as PS.
  destruct (pset W (s_var s) (s_heap s) p b xs) as [[[h p'] b']|] eqn:Q; [|now rewrite PS]. destruct PS as (r' & -> & P' & H').
  destruct (pset_ok W (s_var s) xs (s_heap s) p b h p' b' C (fun x m => V x m) RP RB Q) as (G & RP' & RB').
  assert (E' : nth_error h n = Some (NPbr p b)) by (rewrite (grown_old _ _ _ G) by (now apply nth_lt in E); exact E).
  assert (X : pbr_v (MkS (wr h n (NPbr p' b')) (s_var s)) r = Some (Some r')).
  { unfold pbr_v. cbn [s_var s_heap]. rewrite Vr. unfold pbr_at. rewrite wr_same by (now apply nth_lt in E'). rewrite (pb_perm h n p p' b b' E'), P'. destruct r' as [pr br]. cbn [pb_p pb_b] in *.
    destruct b' as [b'|], br as [br|]; cbn in H'; try contradiction; [|reflexivity]. rewrite (pb_bctx h n p p' b (Some b') E'), H'. reflexivity. }
  rewrite X. split; [reflexivity|]. split; [discriminate|]. split; [reflexivity|discriminate].
Qed.

(* ---- lists of permission-bind rules ---- *)
Lemma rules_iff h n l : pbrs_at h n = Some l <-> exists ks vs, nth_error h n = Some (NPbrs ks) /\ all (map (pbr_at h) ks) = Some vs /\ l = map Some vs.
Proof.
  unfold pbrs_at. split.
  - destruct (nth_error h n) as [d|]; [|discriminate]. destruct d as [| | | |ks| | | |]; try discriminate. destruct (all _) as [vs|] eqn:A; [|discriminate]. intros [= <-]. exists ks, vs. auto.
  - intros (ks & vs & -> & -> & ->). reflexivity.
Qed.
Lemma push_pbrs_value W s : wf s -> forall xs h l ws vs, grown (s_heap s) h -> (forall k, In k l -> (k < List.length h)%nat) -> all (map (pbr_at h) l) = Some ws -> all (map (larg_v s) xs) = Some vs ->
  match push_pbrs W (s_var s) h l xs with
  | Some (h', l') => exists us, all (map (pbr_at h') l') = Some us /\ pbrs_push W (map Some ws) vs = Some (map Some us)
  | None => pbrs_push W (map Some ws) vs = None
  end.
Proof.
  intros [C0 V0]. induction xs as [|x xs IH]; intros h l ws vs G M A VA; cbn [map all] in VA; [injection VA as <-; cbn; eauto|].
  destruct (larg_v s x) as [v|] eqn:X; [|discriminate]. destruct (all (map (larg_v s) xs)) as [vt|] eqn:VT; [|discriminate]. injection VA as <-. pose proof (grown_closed _ _ G) as C.
  assert (ONE : forall h1 m y l1, grown h h1 -> (m < List.length h1)%nat -> pbr_at h1 m = Some y -> all (map (pbr_at h1) l) = Some ws ->
    push_pbr W h1 l (Some m) = Some l1 -> exists us, all (map (pbr_at h1) l1) = Some us /\ map Some us = pbrs_push1 W (map Some ws) (PLRule (Some y)) /\ (forall k, In k l1 -> (k < List.length h1)%nat)).
  { intros h1 m y l1 G1 LM PY A1 PP. destruct (push_pbr_at W h1 l ws m l1 A1 PP) as (y' & us & Y & A2 & Q). rewrite PY in Y. injection Y as <-. exists us. split; [exact A2|]. split; [exact Q|].
    intros k K. apply (push_pbr_in W _ _ _ _ PP) in K as [K|[= <-]]; [apply M in K; apply grown_len in G1; lia|exact LM]. }
  destruct x as [t|r|]; cbn [larg_v] in X; cbn [push_pbrs].
  - injection X as <-. cbn [pbrs_push]. destruct (parsePBR W t) as [| |[y|]] eqn:Q; [reflexivity|eauto| |].
    + pose proof (alloc_pbr_ok y h C) as AP. destruct (alloc_pbr h y) as [h1 m]. destruct AP as (G1 & L1 & P1). assert (GY : bctx_good (pb_b y)) by (unfold parsePBR in Q; destruct (w_pbr W t); [|discriminate]; now apply processPBR_good in Q).
      specialize (P1 GY). assert (A1 : all (map (pbr_at h1) l) = Some ws) by (rewrite (map_ext_in _ (pbr_at h)); [exact A|]; intros k K; apply pbr_old; auto).
      destruct (push_pbr W h1 l (Some m)) as [l1|] eqn:PP; [|exfalso; cbn [push_pbr] in PP; rewrite A1, P1 in PP; discriminate].
      destruct (ONE h1 m y l1 G1 L1 P1 A1 PP) as (us & U1 & U2 & U3). rewrite <- U2. apply IH; auto. eapply grown_trans; eauto.
    + cbn [pbrs_push1]. replace (push1 (pbrs_policy W) (map Some ws) None) with (map Some ws); [now apply IH|]. unfold push1. replace (pbrs_policy W (map Some ws) None) with false; [reflexivity|]. unfold pbrs_policy. now destruct (pbrs_contains _ _ _).
  - unfold pbr_v in X. destruct (s_var s r) as [m|] eqn:Vr.
    + destruct (pbr_at (s_heap s) m) as [y|] eqn:PY; [|discriminate]. injection X as <-. cbn [pbrs_push]. pose proof (V0 _ _ Vr) as LM. assert (PY1 : pbr_at h m = Some y) by (rewrite (pbr_old (s_heap s) h); auto).
      destruct (push_pbr W h l (Some m)) as [l1|] eqn:PP; [|exfalso; cbn [push_pbr] in PP; rewrite A, PY1 in PP; discriminate].
      destruct (ONE h m y l1 (grown_refl _ C) ltac:(apply grown_len in G; lia) PY1 A PP) as (us & U1 & U2 & U3). rewrite <- U2. apply IH; auto.
    + injection X as <-. cbn [push_pbr pbrs_push pbrs_push1]. replace (push1 (pbrs_policy W) (map Some ws) None) with (map Some ws); [now apply IH|]. unfold push1. replace (pbrs_policy W (map Some ws) None) with false; [reflexivity|].
      unfold pbrs_policy. now destruct (pbrs_contains _ _ _).
  - injection X as <-. cbn [pbrs_push pbrs_push1]. now apply IH.
Qed.
Theorem C137_pbrs_new : forall W s l s', step W s (XPbrs l) = Some s' -> exists n, s_var s' l = Some n /\ n = List.length (s_heap s) /\ pbrs_at (s_heap s') n = Some (PBRs W []).
Proof. intros W s l s' [= <-]. eexists. cbn. rewrite upd_same. split; [reflexivity|]. split; [reflexivity|]. unfold pbrs_at. now rewrite nth_snoc. Qed.
Theorem C137_pbrs_push : forall W s l n vs xs as_, reached W s -> s_var s l = Some n -> pbrs_at (s_heap s) n = Some vs -> all (map (larg_v s) xs) = Some as_ ->
  match step W s (XPushPbr l xs) with
  | Some s' => s_var s' = s_var s /\ pbrs_push W vs as_ = pbrs_at (s_heap s') n /\ pbrs_at (s_heap s') n <> None
  | None => pbrs_push W vs as_ = None
  end.
Proof.
  intros W s l n vs xs as_ R V P A. pose proof (reached_wf W s R) as Wf. pose proof Wf as [C VV]. apply rules_iff in P as (ks & ws & E & AW & ->). cbn [step]. unfold at_var. rewrite V, E.
  assert (M : forall k, In k ks -> (k < List.length (s_heap s))%nat) by (intros k K; apply (C _ _ _ E K)).
  pose proof (push_pbrs_value W s Wf xs (s_heap s) ks ws as_ (grown_refl _ C) M AW A) as PV. destruct (push_pbrs W (s_var s) (s_heap s) ks xs) as [[h ks']|] eqn:Q; [|exact PV].
  destruct PV as (us & U & ->). split; [reflexivity|]. cbn [s_heap]. destruct (push_pbrs_ok W _ _ _ _ _ _ C (fun x m => VV x m) M Q) as [G _].
  assert (E' : nth_error h n = Some (NPbrs ks)) by (rewrite (grown_old _ _ _ G) by (now apply nth_lt in E); exact E).
  assert (X : pbrs_at (wr h n (NPbrs ks')) n = Some (map Some us)).
  { apply rules_iff. exists ks', us. rewrite wr_same by (now apply nth_lt in E'). split; [reflexivity|]. split; [|reflexivity]. rewrite (map_ext _ (pbr_at h)); [exact U|].
    apply box_pbr; [apply wr_len|]. now apply (box_wr h n (NPbrs ks)). }
  rewrite X. split; [reflexivity|discriminate].
Qed.
Lemma all_last {A B} (f : A -> option B) ks vs : all (map f ks) = Some vs ->
  match nth_error ks (pred (List.length ks)) with Some k => f k = nth_error vs (pred (List.length vs)) | None => nth_error vs (pred (List.length vs)) = None end.
Proof.
  intros A0. apply all_some in A0. assert (LL : List.length vs = List.length ks) by (apply (f_equal (@List.length _)) in A0; rewrite !map_length in A0; congruence). rewrite LL.
  destruct (nth_error ks (pred (List.length ks))) as [k|] eqn:K.
  - apply (f_equal (fun l => nth_error l (pred (List.length ks)))) in A0. rewrite (map_nth_error _ _ _ K), nth_error_map in A0. destruct (nth_error vs _); [cbn in A0; congruence|discriminate].
  - apply nth_error_None in K. apply nth_error_None. lia.
Qed.
Theorem C137_pbrs_pop : forall W s r l n vs s', s_var s l = Some n -> pbrs_at (s_heap s) n = Some vs -> step W s (XPopPbr r l) = Some s' ->
  pbrs_at (s_heap s') n = Some (pop vs) /\ pbr_v s' r = Some (match nth_error vs (pred (List.length vs)) with Some v => v | None => None end) /\ forall y, y <> r -> s_var s' y = s_var s y.
Proof.
  intros W s r l n vs s' V P H. apply rules_iff in P as (ks & ws & E & A & ->). cbn [step] in H. unfold at_var in H. rewrite V, E in H. injection H as <-. cbn [with_var with_node s_heap s_var].
  pose proof (box_wr (s_heap s) n _ (NPbrs (removelast ks)) E eq_refl eq_refl) as B. pose proof (wr_len (s_heap s) n (NPbrs (removelast ks))) as Len. split; [|split; [|intros y N; now apply upd_other]].
  - apply rules_iff. exists (removelast ks), (removelast ws). rewrite wr_same by (now apply nth_lt in E). split; [reflexivity|]. split; [rewrite (map_ext _ _ (box_pbr _ _ Len B)); now apply all_pop|].
    unfold pop. clear. induction ws as [|w [|w2 ws] IH]; [reflexivity|reflexivity|]. cbn [map removelast] in *. now rewrite IH.
  - unfold pbr_v. cbn [with_var with_node s_var s_heap]. rewrite upd_same, map_length, nth_error_map. pose proof (all_last _ _ _ A) as LA. unfold last_ref. destruct (nth_error ks (pred (List.length ks))) as [k|] eqn:K; [|now rewrite LA].
    rewrite (box_pbr _ _ Len B), LA. destruct (all_map_in _ _ _ A k ltac:(eapply nth_error_In; eauto)) as (y & Y & _). rewrite LA in Y. now rewrite Y.
Qed.
Theorem C137_pbrs_index : forall W s r l i n vs s', s_var s l = Some n -> pbrs_at (s_heap s) n = Some vs -> step W s (XIndexPbr r l i) = Some s' ->
  s_heap s' = s_heap s /\ pbr_v s' r = Some (match nth_error vs i with Some v => v | None => None end).
Proof.
  intros W s r l i n vs s' V P [= <-]. apply rules_iff in P as (ks & ws & E & A & ->). split; [reflexivity|]. unfold pbr_v, pbrs_of, at_var. cbn. rewrite upd_same, V, E, nth_error_map.
  apply all_some in A. apply (f_equal (fun l => nth_error l i)) in A. rewrite !nth_error_map in A. destruct (nth_error ks i) as [k|], (nth_error ws i) as [y|]; cbn in A |- *; try discriminate; [|reflexivity]. injection A as ->. reflexivity.
Qed.

(* ---- lists of target rules ---- *)
Lemma push_trs_value W s xs : forall h l, h = s_heap s -> map (tr_at h) (push_many (w_stop W) (push_tr h) l (map (targ_ref s) xs)) = trs_push (w_stop W) (map (tr_at h) l) (map (targ_v s) xs).
Proof.
  intros h l ->. revert l. unfold trs_push. induction xs as [|x xs IH]; intros l; [reflexivity|]. cbn [map push_many].
  assert (Q : map (tr_at (s_heap s)) (push_tr (s_heap s) l (targ_ref s x)) = trs_push1 (map (tr_at (s_heap s)) l) (targ_v s x)).
  { destruct x as [x|]; [|reflexivity]. cbn [targ_ref targ_v]. unfold target_v. destruct (s_var s x) as [m|]; [apply push_tr_at|]. cbn. unfold push1. cbn. now rewrite andb_false_r. }
  rewrite <- Q. rewrite !map_length. destruct (w_stop W && _)%bool; [reflexivity|]. apply IH.
Qed.
Theorem C137_trs_new : forall W s t s', step W s (XTrs t) = Some s' -> exists n, s_var s' t = Some n /\ n = List.length (s_heap s) /\ trs_at (s_heap s') n = Some (false, []).
Proof. intros W s t s' [= <-]. eexists. cbn. rewrite upd_same. split; [reflexivity|]. split; [reflexivity|]. unfold trs_at. now rewrite nth_snoc. Qed.
Theorem C137_trs : forall W s t n b l, s_var s t = Some n -> trs_at (s_heap s) n = Some (b, l) ->
  (forall xs s', step W s (XTPush t xs) = Some s' -> s_var s' = s_var s /\ trs_at (s_heap s') n = Some (b, trs_push (w_stop W) l (map (targ_v s) xs))) /\
  (forall x s', step W s (XTPop x t) = Some s' -> trs_at (s_heap s') n = Some (b, pop l) /\
     target_v s' x = match nth_error l (pred (List.length l)) with Some r => r | None => None end /\ forall y, y <> x -> s_var s' y = s_var s y) /\
  (forall x i s', step W s (XTIndex x t i) = Some s' -> s_heap s' = s_heap s /\ target_v s' x = match nth_error l i with Some r => r | None => None end) /\
  (forall q s', step W s (XTNoPad t q) = Some s' -> s_var s' = s_var s /\ trs_at (s_heap s') n = Some (match q with Some q => negb q | None => b end, l)).
Proof.
  intros W s t n b l V T. unfold trs_at in T. destruct (nth_error (s_heap s) n) as [d|] eqn:E; [|discriminate]. destruct d as [| | | | | |b0 ks| |]; try discriminate. injection T as -> <-. pose proof (nth_lt _ _ _ E) as L.
  assert (BX : forall ks' b', trs_at (wr (s_heap s) n (NTrs b' ks')) n = Some (b', map (tr_at (s_heap s)) ks')).
  { intros ks' b'. unfold trs_at. rewrite wr_same by exact L. now rewrite (map_ext _ _ (box_tr _ _ (box_wr (s_heap s) n _ (NTrs b' ks') E eq_refl eq_refl))). }
  repeat apply conj.
  - intros xs s'. cbn [step]. unfold on_trs, at_var. rewrite V, E. intros [= <-]. split; [reflexivity|]. cbn [with_node s_heap]. rewrite BX. now rewrite (push_trs_value W s).
  - intros x s'. cbn [step]. unfold at_var. rewrite V, E. intros [= <-]. cbn [with_var with_node s_heap s_var]. split; [|split; [|intros y N; now apply upd_other]].
    + rewrite BX. unfold pop. do 2 f_equal. clear. induction ks as [|w [|w2 ws] IH]; [reflexivity|reflexivity|]. cbn [map removelast] in *. now rewrite IH.
    + unfold target_v. cbn [with_var with_node s_var s_heap]. rewrite upd_same, map_length, nth_error_map. unfold last_ref. destruct (nth_error ks _) as [k|]; [|reflexivity]. cbn.
      apply (box_tr _ _ (box_wr (s_heap s) n _ (NTrs b (removelast ks)) E eq_refl eq_refl)).
  - intros x i s' [= <-]. split; [reflexivity|]. unfold target_v, trs_of, at_var. cbn. rewrite upd_same, V, E, nth_error_map. now destruct (nth_error ks i).
  - intros q s'. cbn [step]. unfold on_trs, at_var. rewrite V, E. intros [= <-]. split; [reflexivity|]. cbn [with_node s_heap]. rewrite BX. destruct q; [reflexivity|]. now rewrite negb_involutive.
Qed.

(* ---- instructions and lists of them ---- *)
Theorem C137_fields : forall W s i n a t p x s', s_var s i = Some n -> nth_error (s_heap s) n = Some (NIns a t p) ->
  (step W s (XTRsOf x i) = Some s' -> s_heap s' = s_heap s /\ s_var s' x = Some t) /\ (step W s (XPBRsOf x i) = Some s' -> s_heap s' = s_heap s /\ s_var s' x = Some p).
Proof. intros W s i n a t p x s' V E. split; intros [= <-]; (split; [reflexivity|]); cbn; rewrite upd_same; unfold at_var; now rewrite V, E. Qed.
Lemma push_inss_value W s : wf s -> forall xs h l ts vs, grown (s_heap s) h -> (forall k, In k l -> (k < List.length h)%nat) -> all (map (itext W h) l) = Some ts -> all (map (jtext W s) xs) = Some vs ->
  exists h' l', push_inss W (s_var s) h l xs = Some (h', l') /\ all (map (itext W h') l') = Some (fold_left (add_text W) vs ts).
Proof.
  intros [C0 V0]. induction xs as [|x xs IH]; intros h l ts vs G M A VA; cbn [map all] in VA; [injection VA as <-; cbn; eauto|].
  destruct (jtext W s x) as [v|] eqn:X; [|discriminate]. destruct (all (map (jtext W s) xs)) as [vt|] eqn:VT; [|discriminate]. injection VA as <-. pose proof (grown_closed _ _ G) as C. cbn [fold_left].
  assert (ONE : forall h1 m y, grown h h1 -> (m < List.length h1)%nat -> itext W h1 m = Some y -> exists l1, push_ins W h1 l (Some m) = Some l1 /\ all (map (itext W h1) l1) = Some (add_text W ts (Some y)) /\ (forall k, In k l1 -> (k < List.length h1)%nat)).
  { intros h1 m y G1 LM Y. assert (A1 : all (map (itext W h1) l) = Some ts) by (rewrite (map_ext_in _ (itext W h)); [exact A|]; intros k K; apply itext_old; auto).
    cbn [push_ins]. rewrite A1, Y. eexists. split; [reflexivity|]. cbn [add_text]. destruct (existsb _ ts).
    - split; [exact A1|]. intros k K. apply M in K. apply grown_len in G1. lia.
    - split; [rewrite map_app; apply all_app; [exact A1|]; cbn; now rewrite Y|]. intros k K. apply in_app_iff in K as [K|[<-|[]]]; [apply M in K; apply grown_len in G1; lia|exact LM]. }
  destruct x as [t|i|]; cbn [jtext] in X; cbn [push_inss].
  - destruct (parseInstruction W t) as [| |[a|]] eqn:Q; [discriminate|injection X as <-; now apply IH| |injection X as <-; now apply IH]. injection X as <-.
    pose proof (alloc_ins_ok a h C) as AI. destruct (alloc_ins h a) as [h1 m]. destruct AI as (G1 & L1 & I1). specialize (I1 (parse_good W t a Q)).
    assert (Y : itext W h1 m = Some (ins_string W (Some a))) by (unfold itext; rewrite I1; reflexivity). destruct (ONE h1 m _ G1 L1 Y) as (l1 & -> & A1 & M1). apply IH; auto. eapply grown_trans; eauto.
  - destruct (s_var s i) as [m|] eqn:Vi; [|injection X as <-; cbn [push_ins]; now apply IH]. destruct (itext W (s_heap s) m) as [y|] eqn:Y; [|discriminate]. injection X as <-. pose proof (V0 _ _ Vi) as LM.
    assert (Y1 : itext W h m = Some y) by (rewrite <- Y; apply itext_old; auto). destruct (ONE h m y (grown_refl _ C) ltac:(apply grown_len in G; lia) Y1) as (l1 & -> & A1 & M1). now apply IH.
  - injection X as <-. now apply IH.
Qed.
Theorem C137_inss_push : forall W s l n ts xs vs, reached W s -> s_var s l = Some n -> texts W s n = Some ts -> all (map (jtext W s) xs) = Some vs ->
  exists s', step W s (XPushIns l xs) = Some s' /\ s_var s' = s_var s /\ texts W s' n = Some (fold_left (add_text W) vs ts).
Proof.
  intros W s l n ts xs vs R V T A. pose proof (reached_wf W s R) as Wf. pose proof Wf as [C VV]. unfold texts in T. destruct (nth_error (s_heap s) n) as [d|] eqn:E; [|discriminate]. destruct d as [| | | | | | | |ks]; try discriminate.
  assert (M : forall k, In k ks -> (k < List.length (s_heap s))%nat) by (intros k K; apply (C _ _ _ E K)).
  destruct (push_inss_value W s Wf xs (s_heap s) ks ts vs (grown_refl _ C) M T A) as (h & ks' & Q & AT). cbn [step]. unfold at_var. rewrite V, E, Q. eexists. split; [reflexivity|]. split; [reflexivity|].
  destruct (push_inss_ok W _ _ _ _ _ _ C (fun x m => VV x m) M Q) as [G _]. assert (E' : nth_error h n = Some (NInss ks)) by (rewrite (grown_old _ _ _ G) by (now apply nth_lt in E); exact E).
  unfold texts. cbn [s_heap]. rewrite wr_same by (now apply nth_lt in E'). rewrite (map_ext _ (itext W h)); [exact AT|]. intros k. unfold itext. now rewrite (inss_wr _ _ _ _ _ E').
Qed.
Theorem C137_inss_pop : forall W s i l n ts s', s_var s l = Some n -> texts W s n = Some ts -> step W s (XPopIns i l) = Some s' ->
  texts W s' n = Some (pop ts) /\ shown W s' i = nth_error ts (pred (List.length ts)) /\ forall y, y <> i -> s_var s' y = s_var s y.
Proof.
  intros W s i l n ts s' V T H. unfold texts in T. destruct (nth_error (s_heap s) n) as [d|] eqn:E; [|discriminate]. destruct d as [| | | | | | | |ks]; try discriminate.
  cbn [step] in H. unfold at_var in H. rewrite V, E in H. injection H as <-. cbn [with_var with_node s_heap s_var]. split; [|split; [|intros y N; now apply upd_other]].
  - unfold texts. cbn [with_var with_node s_heap]. rewrite wr_same by (now apply nth_lt in E). rewrite (map_ext _ (itext W (s_heap s))); [now apply all_pop|]. intros k. unfold itext. now rewrite (inss_wr _ _ _ _ _ E).
  - unfold shown. cbn [with_var with_node s_var s_heap]. rewrite upd_same. pose proof (all_last _ _ _ T) as LA. unfold last_ref. destruct (nth_error ks (pred (List.length ks))) as [k|] eqn:K; [|now symmetry].
    destruct (all_map_in _ _ _ T k ltac:(eapply nth_error_In; eauto)) as (y & Y & _). rewrite <- LA. unfold itext in Y |- *. rewrite <- (inss_wr _ _ _ (removelast ks) k E) in Y |- *.
    unfold text_at, itext. unfold ins_at in Y |- *. destruct (nth_error (wr (s_heap s) n (NInss (removelast ks))) k) as [d|]; [|discriminate]. destruct d; try discriminate. reflexivity.
Qed.
Theorem C137_inss_index : forall W s i l k n ts s', s_var s l = Some n -> texts W s n = Some ts -> step W s (XIndexIns i l k) = Some s' -> s_heap s' = s_heap s /\ shown W s' i = nth_error ts k.
Proof.
  intros W s i l k n ts s' V T [= <-]. split; [reflexivity|]. unfold texts in T. destruct (nth_error (s_heap s) n) as [d|] eqn:E; [|discriminate]. destruct d as [| | | | | | | |ks]; try discriminate.
  unfold shown, inss_of, at_var. cbn [with_var s_var s_heap]. rewrite upd_same, V, E. apply all_some in T. apply (f_equal (fun l => nth_error l k)) in T. rewrite !nth_error_map in T.
  destruct (nth_error ks k) as [m|], (nth_error ts k) as [y|]; cbn in T; try discriminate; [|reflexivity]. injection T as T. rewrite <- T. unfold text_at, itext. unfold itext, ins_at in T |- *.
  destruct (nth_error (s_heap s) m) as [d|]; [|discriminate]. destruct d; try discriminate. reflexivity.
Qed.
(* assignment gives both variables the same object *)
Theorem C137_copy : forall W s x y s', (step W s (XCopy x y) = Some s' -> s_heap s' = s_heap s /\ s_var s' x = s_var s y /\ forall z, z <> x -> s_var s' z = s_var s z) /\
  (step W s (XZero x) = Some s' -> s_heap s' = s_heap s /\ s_var s' x = None /\ forall z, z <> x -> s_var s' z = s_var s z).
Proof. intros W s x y s'. split; intros [= <-]; cbn; (split; [reflexivity|]); rewrite upd_same; (split; [reflexivity|]); intros z N; now rewrite upd_other. Qed.

(* ---------------- concrete cases ---------------- *)
(* wState of TWhole.v, then an And stack (20) with a rule and an Or stack (21) inside *)
Definition vProg : list stmt :=
  (wProg ++ [XRule 22 cB; XStack 21 WOr true; XPush 21 22; XStack 20 WAnd true; XPush 20 12; XPush 20 21; XPbr 14 11 (BStackVar 20); XPbrs 15; XPushPbr 15 [LRule 13]; XTrs 16])%list.
Definition vState : st := match run W0 s_start vProg with Some s => s | None => s_start end.
Definition after (c : stmt) : st := match step W0 vState c with Some s => s | None => s_start end.
Example C137_witness_reached : reached W0 vState.
Proof. exists vProg. vm_compute. reflexivity. Qed.
(* the shared permission changes the text of both rules made with it *)
Example C137_witness_values : perm_v vState 11 <> PNil /\ rule_v vState 12 = Some cA /\ target_v vState 10 <> None /\
  tree_v vState 20 = Some (Stk WAnd false false true [Leaf cA; Stk WOr false false true [Leaf cB]]) /\ pbr_v vState 14 <> None /\
  shown W0 (after (XShift 9 11 true [MRights.AStr "write"])) 13 <> shown W0 vState 13 /\ shown W0 (after (XShift 9 11 true [MRights.AStr "write"])) 14 <> shown W0 vState 14.
Proof. repeat apply conj; vm_compute; (reflexivity || discriminate). Qed.
(* a stack and a member that does not contain it; pushed the other way round it is endless *)
Lemma v_no_loop : ~ leads (s_heap vState) 12 14.
Proof.
  intros D. assert (X : In 14%nat [12; 11]%nat); [|vm_compute in X; intuition discriminate].
  eapply (leads_in (s_heap vState) [12; 11]%nat); [|exact D|now left]. intros k d [<-|[<-|[]]] E j J; vm_compute in E; injection E as <-; vm_compute in J |- *; intuition.
Qed.
Example C137_witness_stack : s_var vState 20 = Some 13%nat /\ s_var vState 21 = Some 12%nat /\ leads (s_heap vState) 13 12 /\
  shown W0 (after (XPush 20 21)) 20 <> shown W0 vState 20 /\ shown W0 (after (XPush 20 21)) 20 <> None /\ shown W0 (after (XPush 21 20)) 20 = None.
Proof.
  repeat apply conj; try (vm_compute; (reflexivity || discriminate)). eapply L_down; [vm_compute; reflexivity| |constructor]. vm_compute. auto.
Qed.
Example C137_witness_sets : all (map (parg_v vState) [PPerm 11; PBind (BStackVar 20)]) <> None /\ all (map (larg_v vState) [LRule 13; LRule 14; LAny]) <> None /\
  option_map (@List.length pbr) (pbrs_at (s_heap (after (XPushPbr 15 [LRule 13; LRule 14; LAny]))) 15) = Some 2%nat /\
  trs_at (s_heap (after (XTPush 16 [TVar 10; TVar 10; TAny]))) 16 = Some (false, [target_v vState 10]) /\
  all (map (jtext W0 vState) [MWhole.JVar 1; MWhole.JVar 0; MWhole.JAny]) <> None /\
  option_map (@List.length string) (texts W0 (after (XPushIns 2 [MWhole.JVar 1; MWhole.JVar 0; MWhole.JAny])) 10) = Some 2%nat.
Proof. repeat apply conj; vm_compute; (reflexivity || discriminate). Qed.
Print Assumptions C137_perm_new.
Print Assumptions C137_perm_call.
Print Assumptions C137_rule.
Print Assumptions C137_target.
Print Assumptions C137_new_rules.
Print Assumptions C137_stack_new.
Print Assumptions C137_stack_push.
Print Assumptions C137_stack_endless.
Print Assumptions C137_stack_pop.
Print Assumptions C137_stack_index.
Print Assumptions C137_stack_replace.
Print Assumptions C137_stack_settings.
Print Assumptions C137_pbr_new.
Print Assumptions C137_pbr_set.
Print Assumptions C137_pbrs_new.
Print Assumptions C137_pbrs_push.
Print Assumptions C137_pbrs_pop.
Print Assumptions C137_pbrs_index.
Print Assumptions C137_trs_new.
Print Assumptions C137_trs.
Print Assumptions C137_fields.
Print Assumptions C137_inss_push.
Print Assumptions C137_inss_pop.
Print Assumptions C137_inss_index.
Print Assumptions C137_copy.
(* What is no bind rule and no stack of them is not taken by Push and Replace of a stack of
   bind rules: nothing changes at all. *)
Theorem C137_stack_other : forall W s x y i, (forall n c, at_var s y <> Some (n, NBind c)) -> (forall n w p f d ks, at_var s y <> Some (n, NStk w p f d ks)) ->
  step W s (XPush x y) = Some s /\ step W s (XReplace x y i) = Some s.
Proof.
  intros W s x y i B S. cbn [step]. unfold accepted. destruct (at_var s y) as [[m e]|] eqn:E; [|now split].
  assert (A : acceptable e = false).
  { destruct e; try reflexivity; [now elim (B m c)|now elim (S m w paren fold pad ks)]. }
  rewrite A. now split.
Qed.
Print Assumptions C137_stack_other.
(* a permission is such an argument *)
Example C137_stack_other_witness : forall W, exists s, MWhole.run W s_start [XPerm 0 true []; XStack 1 WAnd false] = Some s /\
  (forall n c, at_var s 0 <> Some (n, NBind c)) /\ (forall n w p f d ks, at_var s 0 <> Some (n, NStk w p f d ks)) /\ exists n w p f d ks, at_var s 1 = Some (n, NStk w p f d ks).
Proof. intros W. eexists. split; [reflexivity|]. split; [intros n c; discriminate|]. split; [intros; discriminate|]. now do 6 eexists. Qed.
