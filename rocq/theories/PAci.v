(* Lemmas for C38-C40, C48 and C61-C70. *)
From Coq Require Import String Ascii List PeanoNat NArith ZArith Bool Lia.
From Verif Require Import GoStr GoStrFacts Shifty MMisc MLists MKw MRights MRule MConv MTree MAci
  SLists SAci PLists SKw PKw PRule STree PTree.
Import ListNotations.
Open Scope string_scope.

(* ---- lists without repetitions ---- *)
Lemma existsb_none {A} (p : A -> bool) l : existsb p l = false <-> forall x, In x l -> p x = false.
Proof.
  induction l as [|a l IH]; cbn [existsb In]; [easy|]. rewrite orb_false_iff, IH. split.
  - intros [H H'] x [<-|Hx]; auto.
  - intros H. split; [apply H; now left|]. intros x Hx. apply H. now right.
Qed.
Lemma firsts_distinct {A} (same : A -> A -> bool) l : forall seen,
  distinct_by same (seen ++ l)%list -> firsts_by same l seen = l.
Proof.
  induction l as [|x l IH]; intros seen D; [reflexivity|]. cbn [firsts_by].
  assert (E : existsb (fun y => same y x) seen = false).
  { apply existsb_none. intros y Hy. clear IH. unfold distinct_by in D.
    induction seen as [|z seen IHs]; [destruct Hy|]. cbn [app] in D. inversion D as [|? ? F D']; subst.
    destruct Hy as [->|Hy]; [|now apply IHs]. rewrite Forall_forall in F. apply F, in_app_iff. right. now left. }
  rewrite E. f_equal. apply IH. now rewrite <- app_assoc.
Qed.
Lemma firsts_inv {A} (same : A -> A -> bool) l : forall seen,
  distinct_by same seen -> distinct_by same (seen ++ firsts_by same l seen)%list.
Proof.
  induction l as [|x l IH]; intros seen D; cbn [firsts_by]; [now rewrite app_nil_r|].
  destruct (existsb (fun y => same y x) seen) eqn:E; [now apply IH|].
  change (x :: firsts_by same l (seen ++ [x]))%list with ([x] ++ firsts_by same l (seen ++ [x]))%list.
  rewrite app_assoc. apply IH. apply fop_snoc; [exact D|]. now apply existsb_none.
Qed.
Lemma firsts_in {A} (same : A -> A -> bool) l : forall seen x, In x (firsts_by same l seen) -> In x l.
Proof.
  induction l as [|y l IH]; intros seen x; cbn [firsts_by]; [easy|].
  destruct (existsb _ seen); [intros H; right; now apply (IH seen)|]. intros [<-|H]; [now left|right; now apply (IH _ _ H)].
Qed.

(* ---- permission-bind rules ---- *)
Section W.
Variable W : world.

Lemma pbr_valid_iff r : pbr_valid r = true <-> exists d v b, r = Some (MkPB (PSome d v) (Some b)).
Proof.
  split.
  - destruct r as [[[|d v] [b|]]|]; try discriminate. intros _. eauto.
  - intros (d & v & b & ->). reflexivity.
Qed.
Lemma processPBR_gives a r : processPBR W a = Gives r ->
  exists d v t, r = Some (MkPB (PSome d v) (Some (BCStack t))) /\
    match t with
    | Some t => is_stk t
    | None => w_zero W <> "" /\ match ap_b a with PStk k _ _ => known_kind k = false | _ => True end
    end.
Proof.
  unfold processPBR, unpackageAntlrPermission. destruct (fold_left _ _ _) as [bits rint]. destruct (bits =? rint)%N; [|discriminate].
  destruct (ap_allow (ap_p a)) as [x|]; [|discriminate]. destruct (convert _ _ _ _ _) as [| | |t] eqn:E; try discriminate; intros [= <-]; do 3 eexists; (split; [reflexivity|]).
  - apply convert_zero in E as [Z K]. split; [|exact K]. intros X. now rewrite X in Z.
  - apply convert_full in E. apply E.
Qed.
Lemma processPBR_valid a r : processPBR W a = Gives r -> pbr_valid r = true.
Proof. intros H. apply processPBR_gives in H as (d & v & t & -> & _). reflexivity. Qed.
Lemma parsePBR_valid s r : parsePBR W s = Gives r -> pbr_valid r = true.
Proof. unfold parsePBR. destruct (w_pbr W s); [apply processPBR_valid|discriminate]. Qed.

Definition pl_inv (l : list pbr) : Prop := (forall r, In r l -> pbr_valid r = true) /\ distinct_by (same_pbr W) l.
Lemma pl_push1 l r : pbrs_push1 W l (PLRule r) =
  if (pbr_valid r && negb (existsb (fun y => same_pbr W y r) l))%bool then (l ++ [r])%list else l.
Proof.
  cbn [pbrs_push1]. unfold push1, pbrs_policy, pbrs_contains. fold (same_pbr W). 
  change (existsb (fun y : pbr => e_eqf (w_env W) (pbr_string W y) (pbr_string W r)) l) with (existsb (fun y => same_pbr W y r) l).
  destruct (existsb _ l), (pbr_valid r); reflexivity.
Qed.
Lemma pl_push1_inv l x : pl_inv l -> pl_inv (pbrs_push1 W l x).
Proof.
  intros [V D]. destruct x as [s|r|]; [now split| |now split]. rewrite pl_push1.
  destruct (pbr_valid r) eqn:E, (existsb (fun y => same_pbr W y r) l) eqn:X; cbn [andb negb]; try now split.
  split.
  - intros y Hy. apply in_app_iff in Hy as [Hy|[<-|[]]]; auto.
  - apply fop_snoc; [exact D|]. now apply existsb_none.
Qed.
Lemma pl_push_inv xs : forall l l', pl_inv l -> pbrs_push W l xs = Some l' -> pl_inv l'.
Proof.
  induction xs as [|x xs IH]; intros l l' H E; cbn [pbrs_push] in E.
  - now injection E as <-.
  - destruct x as [s|r|].
    + destruct (parsePBR W s) as [| |r]; [discriminate|now injection E as <-|].
      apply (IH _ _ (pl_push1_inv l (PLRule r) H) E).
    + apply (IH _ _ (pl_push1_inv l (PLRule r) H) E).
    + apply (IH _ _ H E).
Qed.
Lemma pl_nil : pl_inv [].
Proof. split; [easy|constructor]. Qed.
Lemma pl_ctor xs : pl_inv (PBRs W xs).
Proof. unfold PBRs. apply push_many_inv; [|apply pl_nil]. intros l x _. apply pl_push1_inv. Qed.
Lemma pl_pop l : pl_inv l -> pl_inv (pop l).
Proof. intros [V D]. split; [intros r Hr; apply V; now apply in_pop|now apply fop_pop]. Qed.
Lemma pl_step c l l' : pl_inv l -> pbrs_step W l c = Some l' -> pl_inv l'.
Proof.
  intros H. destruct c as [xs|]; cbn [pbrs_step]; [now apply pl_push_inv|]. intros [= <-]. now apply pl_pop.
Qed.
Lemma pl_run h : forall l l', pl_inv l -> pbrs_run W l h = Some l' -> pl_inv l'.
Proof.
  induction h as [|c h IH]; intros l l' H E; cbn [pbrs_run] in E; [now injection E as <-|].
  destruct (pbrs_step W l c) as [l1|] eqn:S; [|discriminate]. apply (IH l1); [now apply (pl_step c l)|exact E].
Qed.
(* pushing rules one by one *)
Definition push_all (l : list pbr) (rs : list pbr) : list pbr := fold_left (fun l r => pbrs_push1 W l (PLRule r)) rs l.
Lemma push_all_inv rs : forall l, pl_inv l -> pl_inv (push_all l rs).
Proof.
  unfold push_all. induction rs as [|r rs IH]; intros l H; [exact H|]. cbn [fold_left]. apply IH. now apply (pl_push1_inv l (PLRule r)).
Qed.
Lemma push_all_exact rs : forall l, push_all l rs = (l ++ firsts_by (same_pbr W) (filter pbr_valid rs) l)%list.
Proof.
  unfold push_all. induction rs as [|r rs IH]; intros l; [cbn; now rewrite app_nil_r|]. cbn [fold_left filter]. rewrite IH, pl_push1.
  destruct (pbr_valid r); cbn [andb]; [|reflexivity]. cbn [firsts_by].
  destruct (existsb _ l); cbn [negb]; [reflexivity|]. now rewrite <- app_assoc.
Qed.
Lemma filter_all {A} (p : A -> bool) l : (forall x, In x l -> p x = true) -> filter p l = l.
Proof.
  induction l as [|x l IH]; intros H; [reflexivity|]. cbn [filter]. rewrite (H x) by (now left). f_equal. apply IH. intros y Hy. apply H. now right.
Qed.
Lemma push_all_id l : pl_inv l -> push_all [] l = l.
Proof.
  intros [V D]. rewrite push_all_exact. cbn [app]. rewrite (filter_all _ _ V). now apply firsts_distinct.
Qed.
Lemma built_valid xs rs ok : built W xs rs ok -> forall r, In r rs -> pbr_valid r = true.
Proof.
  induction 1 as [|? ? ? ? IH| |a r t rs ok P B IH]; intros x Hx; try contradiction; [now apply IH|].
  destruct Hx as [<-|Hx]; [now apply (processPBR_valid a)|now apply IH].
Qed.
Lemma processPBRs_built xs : forall l l' ok,
  processPBRs W l xs = Some (l', ok) <-> exists rs, built W xs rs ok /\ l' = push_all l rs.
Proof.
  induction xs as [|x xs IH]; intros l l' ok; cbn [processPBRs].
  - split.
    + intros [= <- <-]. exists []. split; [constructor|reflexivity].
    + intros (rs & B & ->). now inversion B.
  - destruct x as [a|].
    + destruct (processPBR W a) as [| |r] eqn:P.
      * split; [discriminate|]. intros (rs & B & _). inversion B; congruence.
      * split.
        -- intros [= <- <-]. exists []. split; [now constructor|reflexivity].
        -- intros (rs & B & ->). inversion B; subst; [reflexivity|congruence].
      * rewrite IH. split.
        -- intros (rs & B & ->). exists (r :: rs). split; [now constructor|reflexivity].
        -- intros (rs & B & ->). inversion B; subst; [congruence|]. rewrite P in H1. injection H1 as <-. now exists rs0.
    + rewrite IH. split.
      * intros (rs & B & ->). exists rs. split; [now constructor|reflexivity].
      * intros (rs & B & ->). inversion B; subst. now exists rs.
Qed.
Lemma processPBRs_inv xs l l' ok : pl_inv l -> processPBRs W l xs = Some (l', ok) -> pl_inv l'.
Proof. intros H E. apply processPBRs_built in E as (rs & _ & ->). now apply push_all_inv. Qed.

(* ---- target rules ---- *)
Lemma trs_push_all rs : forall l, trs_inv l ->
  fold_left (fun l r => trs_push1 l (TRule r)) rs l = (l ++ first_rules (map tr_keyword l) rs)%list.
Proof.
  induction rs as [|r rs IH]; intros l H; [cbn; now rewrite app_nil_r|]. cbn [fold_left first_rules].
  rewrite IH by (now apply push1_inv). destruct (push1_exact l (TRule r) H) as [A B].
  destruct ((tr_keyword r =? 0)%N || existsb (N.eqb (tr_keyword r)) (map tr_keyword l))%bool eqn:E.
  - rewrite B; [reflexivity|]. intros r' [= <-]. apply orb_true_iff in E as [E|E].
    + left. apply N.eqb_eq in E. intros [k K]. rewrite E in K. destruct k; discriminate K.
    + right. apply existsb_exists in E as (n & Hn & E). apply N.eqb_eq in E. now subst.
  - apply orb_false_iff in E as [E E']. rewrite (A r eq_refl).
    + rewrite map_app, <- app_assoc. reflexivity.
    + destruct (tr_keyword_cases r) as [Z|K]; [|exact K]. rewrite Z in E. discriminate E.
    + intros I. rewrite existsb_none in E'. specialize (E' _ I). now rewrite N.eqb_refl in E'.
Qed.
Lemma trs_inv_nil : trs_inv [].
Proof. split; [easy|constructor]. Qed.
Lemma collect_first rs : collect_trs rs = first_rules [] rs.
Proof. unfold collect_trs. now rewrite trs_push_all by apply trs_inv_nil. Qed.
Lemma fold_push_inv rs : forall l, trs_inv l -> trs_inv (fold_left (fun l r => trs_push1 l (TRule r)) rs l).
Proof. induction rs as [|r rs IH]; intros l H; [exact H|]. cbn [fold_left]. apply IH. now apply push1_inv. Qed.
Lemma first_rules_inv rs : trs_inv (first_rules [] rs).
Proof. rewrite <- collect_first. apply fold_push_inv, trs_inv_nil. Qed.
Lemma first_rules_id l : trs_inv l -> first_rules [] l = l.
Proof.
  intros [K D]. assert (G : forall l seen, (forall r, In r l -> known_target r) -> NoDup (seen ++ map tr_keyword l)%list -> first_rules seen l = l).
  { clear. induction l as [|r l IH]; intros seen K D; [reflexivity|]. cbn [first_rules map].
    cbn [map] in D. assert (Hn : ~ In (tr_keyword r) seen).
    { apply NoDup_remove_2 in D. intros H. apply D, in_app_iff. now left. }
    assert (E : existsb (N.eqb (tr_keyword r)) seen = false).
    { apply existsb_none. intros x Hx. apply N.eqb_neq. intros <-. contradiction. }
    rewrite E. destruct (K r (or_introl eq_refl)) as [k Kk]. replace (tr_keyword r =? 0)%N with false by (rewrite Kk; now destruct k).
    cbn [orb]. f_equal. apply IH; [intros x Hx; apply K; now right|]. rewrite <- app_assoc. exact D. }
  now apply G.
Qed.
Lemma targetPush1_eq l r : targetPush1 l r = trs_push1 l (TRule r).
Proof.
  unfold targetPush1. destruct (negb _) eqn:E; [reflexivity|]. cbn [trs_push1]. unfold push1, trs_policy.
  destruct r as [c|]; [|now rewrite andb_false_r]. rewrite E. cbn [andb]. now rewrite andb_false_r.
Qed.
Lemma tr_assert_keyword en r r' : tr_assert en r = ROk r' -> tr_keyword r' = tr_keyword r.
Proof.
  unfold tr_assert. destruct r as [c|]; [|discriminate]. destruct (c_ex c) as [[|? ? ?|st vals]|]; try discriminate.
  destruct (assert_target _ _ _) as [| |ex]; try discriminate. intros [= <-].
  unfold tr_set_expression, on_cond, tr_set_quote_style.
  repeat match goal with |- context [match ?x with _ => _ end] => destruct x end; reflexivity.
Qed.
Lemma assert_all_converted en l : forall l' ok, assert_all en l = Some (l', ok) <-> converted en l l' ok.
Proof.
  induction l as [|r t IH]; intros l' ok; cbn [assert_all].
  - split; [intros [= <- <-]; constructor|now inversion 1].
  - destruct (tr_assert en r) as [| |r'] eqn:E.
    + split; [discriminate|]. inversion 1; congruence.
    + split; [intros [= <- <-]; now constructor|]. inversion 1; subst; [reflexivity|congruence].
    + destruct (assert_all en t) as [[t' ok']|] eqn:A.
      * split.
        -- intros [= <- <-]. constructor; [exact E|]. now apply IH.
        -- inversion 1 as [| |? r2 ? t2 ok2 E2 C2]; subst; [congruence|]. apply IH in C2. congruence.
      * split; [discriminate|]. inversion 1 as [| |? r2 ? t2 ok2 E2 C2]; subst; [congruence|]. apply IH in C2. discriminate C2.
Qed.
Lemma converted_keywords en l l' ok : converted en l l' ok -> map tr_keyword l' = map tr_keyword l.
Proof. induction 1 as [| |r r' t t' ok A C IH]; [reflexivity|reflexivity|]. cbn [map]. now rewrite IH, (tr_assert_keyword _ _ _ A). Qed.
Lemma inv_keywords l l' : map tr_keyword l' = map tr_keyword l -> trs_inv l -> trs_inv l'.
Proof.
  intros E [K D]. split; [|now rewrite E]. intros r Hr. apply (in_map tr_keyword) in Hr. rewrite E in Hr.
  apply in_map_iff in Hr as (x & Ex & Hx). destruct (K x Hx) as [k Kk]. exists k. congruence.
Qed.
Lemma processTRs_exact rs l ok : processTRs W rs = Some (l, ok) <-> converted (w_env W) (first_rules [] rs) l ok.
Proof. unfold processTRs. rewrite collect_first. apply assert_all_converted. Qed.

(* ---- instructions ---- *)
Lemma set_labels_exact xs : forall a, i_label (instr_set W a xs) = first_nonempty (i_label a :: flat_map labels_of xs).
Proof.
  unfold instr_set. induction xs as [|x xs IH]; intros a.
  - cbn [fold_left flat_map first_nonempty]. destruct (String.eqb_spec (i_label a) ""); [easy|reflexivity].
  - cbn [fold_left flat_map]. rewrite IH. destruct x; try reflexivity.
    cbn [assertInstruction labels_of app]. unfold setLabel. cbn [first_nonempty].
    destruct s as [|c s], (i_label a) as [|d u] eqn:E; cbn; rewrite ?E; reflexivity.
Qed.
Lemma set_trs_exact xs : forall a, i_trs (instr_set W a xs) = fold_left (fun l r => trs_push1 l (TRule r)) (flat_map targets_of xs) (i_trs a).
Proof.
  unfold instr_set. induction xs as [|x xs IH]; intros a; [reflexivity|]. cbn [fold_left flat_map]. rewrite IH, fold_left_app. f_equal.
  destruct x as [s|l|r|r|l|]; try reflexivity.
  - cbn [assertInstruction targets_of]. unfold setLabel. now destruct (_ && _)%bool.
  - cbn [assertInstruction targets_of i_trs]. generalize (i_trs a). induction l as [|r l IHl]; intros m; [reflexivity|].
    cbn [fold_left]. now rewrite IHl, targetPush1_eq.
Qed.
Lemma set_pbrs_exact xs : forall a, i_pbrs (instr_set W a xs) = push_all (i_pbrs a) (flat_map pbrs_of xs).
Proof.
  unfold instr_set, push_all. induction xs as [|x xs IH]; intros a; [reflexivity|]. cbn [fold_left flat_map]. rewrite IH, fold_left_app. f_equal.
  destruct x as [s|l|r|r|l|]; try reflexivity.
  cbn [assertInstruction pbrs_of]. unfold setLabel. now destruct (_ && _)%bool.
Qed.
Definition ins_inv (i : instruction) : Prop :=
  match i with None => True | Some a => trs_inv (i_trs a) /\ pl_inv (i_pbrs a) end.
Lemma set_inv i xs : ins_inv i -> ins_inv (ins_set W i xs).
Proof.
  intros H. cbn [ins_set ins_inv]. set (a := match i with Some a => a | None => instr_new end).
  assert (Ha : trs_inv (i_trs a) /\ pl_inv (i_pbrs a)) by (destruct i; [exact H|split; [apply trs_inv_nil|apply pl_nil]]).
  split.
  - rewrite set_trs_exact. apply fold_push_inv, Ha.
  - rewrite set_pbrs_exact. apply push_all_inv, Ha.
Qed.
Lemma parse_ins_exact raw i : parseInstruction W raw = Gives i <->
  exists x t p okt okp, w_ins W (condenseWHSP raw) = Some x /\
    converted (w_env W) (first_rules [] (ai_trs x)) t okt /\
    built W (ai_pbrs x) p okp /\
    i = Some (MkIns (ai_label x) t (firsts_by (same_pbr W) p [])).
Proof.
  assert (F : forall x t p okt okp, converted (w_env W) (first_rules [] (ai_trs x)) t okt -> built W (ai_pbrs x) p okp ->
    ins_set W None [ITRs t; IStr (ai_label x); IPBRs (push_all [] p)] = Some (MkIns (ai_label x) t (firsts_by (same_pbr W) p []))).
  { intros x t p okt okp C B. unfold ins_set. f_equal.
    assert (E1 := set_labels_exact [ITRs t; IStr (ai_label x); IPBRs (push_all [] p)] instr_new).
    assert (E2 := set_trs_exact [ITRs t; IStr (ai_label x); IPBRs (push_all [] p)] instr_new).
    assert (E3 := set_pbrs_exact [ITRs t; IStr (ai_label x); IPBRs (push_all [] p)] instr_new).
    destruct (instr_set W instr_new _) as [lb ts ps]. cbn [i_label i_trs i_pbrs] in *.
    cbn [flat_map labels_of targets_of pbrs_of app] in *. rewrite app_nil_r in E2, E3. subst. f_equal.
    - cbn [instr_new i_label first_nonempty]. cbn. destruct (String.eqb_spec (ai_label x) ""); [easy|reflexivity].
    - change (collect_trs t = t). rewrite collect_first. apply first_rules_id.
      apply (inv_keywords _ _ (converted_keywords _ _ _ _ C)), first_rules_inv.
    - change (push_all [] (push_all [] p) = firsts_by (same_pbr W) p []). rewrite push_all_id by (apply push_all_inv, pl_nil). rewrite push_all_exact. cbn [app].
      now rewrite (filter_all _ _ (built_valid _ _ _ B)). }
  unfold parseInstruction. destruct (w_ins W (condenseWHSP raw)) as [x|].
  - destruct (processTRs W (ai_trs x)) as [[t okt]|] eqn:T; destruct (processPBRs W [] (ai_pbrs x)) as [[p okp]|] eqn:P.
    + apply processTRs_exact in T. apply processPBRs_built in P as (rs & B & ->). rewrite (F x t rs okt okp T B). cbn [ins_valid]. split.
      * intros [= <-]. exists x, t, rs, okt, okp. auto.
      * intros (x' & t' & p' & okt' & okp' & [= <-] & C' & B' & ->). do 2 f_equal.
        apply processTRs_exact in T. apply processTRs_exact in C'. rewrite T in C'. injection C' as <- <-.
        assert (E : push_all [] rs = push_all [] p').
        { assert (X : processPBRs W [] (ai_pbrs x) = Some (push_all [] rs, okp)) by (apply processPBRs_built; eauto).
          assert (Y : processPBRs W [] (ai_pbrs x) = Some (push_all [] p', okp')) by (apply processPBRs_built; eauto). congruence. }
        rewrite !push_all_exact in E. cbn [app] in E. rewrite (filter_all _ _ (built_valid _ _ _ B)), (filter_all _ _ (built_valid _ _ _ B')) in E. now rewrite E.
    + split; [discriminate|]. intros (x' & t' & p' & okt' & okp' & [= <-] & C' & B' & ->).
      assert (Y : processPBRs W [] (ai_pbrs x) = Some (push_all [] p', okp')) by (apply processPBRs_built; eauto). congruence.
    + split; [discriminate|]. intros (x' & t' & p' & okt' & okp' & [= <-] & C' & B' & ->). apply processTRs_exact in C'. congruence.
    + split; [discriminate|]. intros (x' & t' & p' & okt' & okp' & [= <-] & C' & B' & ->). apply processTRs_exact in C'. congruence.
  - split; [discriminate|]. intros (x & t & p & okt & okp & H & _). discriminate H.
Qed.
Lemma parse_ins_inv raw i : parseInstruction W raw = Gives i -> ins_inv i.
Proof.
  intros H. apply parse_ins_exact in H as (x & t & p & okt & okp & _ & C & B & ->). cbn [ins_inv i_trs i_pbrs]. split.
  - apply (inv_keywords _ _ (converted_keywords _ _ _ _ C)), first_rules_inv.
  - split; [|apply (firsts_inv (same_pbr W) p []); constructor]. intros r Hr. apply firsts_in in Hr. now apply (built_valid _ _ _ B).
Qed.
Lemma step_inv c i i' : ins_inv i -> ins_step W i c = Some i' -> ins_inv i'.
Proof.
  intros H. destruct c as [xs|c|c|raw]; cbn [ins_step].
  - intros [= <-]. now apply set_inv.
  - destruct i as [a|]; intros [= <-]; [|exact I]. cbn [ins_inv i_trs i_pbrs] in *. split; [|apply H].
    destruct c as [xs|]; cbn [trs_step]; [apply push_inv, H|apply pop_inv, H].
  - destruct i as [a|]; [|intros [= <-]; exact I]. destruct (pbrs_step W (i_pbrs a) c) as [l|] eqn:E; [|discriminate].
    intros [= <-]. cbn [ins_inv i_trs i_pbrs] in *. split; [apply H|]. now apply (pl_step c (i_pbrs a)); [apply H|].
  - destruct (parseInstruction W raw) as [| |i1] eqn:E; [discriminate|now intros [= <-]|]. intros [= <-]. now apply parse_ins_inv in E.
Qed.
Lemma run_inv h : forall i i', ins_inv i -> ins_run W i h = Some i' -> ins_inv i'.
Proof.
  induction h as [|c h IH]; intros i i' H E; cbn [ins_run] in E; [now injection E as <-|].
  destruct (ins_step W i c) as [i1|] eqn:S; [|discriminate]. apply (IH i1); [now apply (step_inv c i)|exact E].
Qed.
Lemma label_step c a i' : no_parse c = true -> ins_step W (Some a) c = Some i' ->
  exists b, i' = Some b /\ i_label b = first_nonempty (i_label a :: set_labels c).
Proof.
  assert (Z : forall s : string, s = first_nonempty [s]) by (intros s; cbn; destruct (String.eqb_spec s ""); congruence).
  intros N. destruct c as [xs|c|c|raw]; cbn [ins_step set_labels].
  - intros [= <-]. eexists. split; [reflexivity|]. apply set_labels_exact.
  - intros [= <-]. eexists. split; [reflexivity|]. apply Z.
  - destruct (pbrs_step W (i_pbrs a) c) as [l|]; [|discriminate]. intros [= <-]. eexists. split; [reflexivity|]. apply Z.
  - discriminate N.
Qed.
Lemma first_nonempty_app l m : first_nonempty (l ++ m) = first_nonempty (first_nonempty l :: m).
Proof.
  induction l as [|s l IH]; [reflexivity|]. cbn [app]. cbn [first_nonempty] in *.
  destruct (String.eqb_spec s ""); [exact IH|]. destruct (String.eqb_spec s ""); [contradiction|reflexivity].
Qed.
Lemma label_run h : forall a i', forallb no_parse h = true -> ins_run W (Some a) h = Some i' ->
  exists b, i' = Some b /\ i_label b = first_nonempty (i_label a :: flat_map set_labels h).
Proof.
  induction h as [|c h IH]; intros a i' N E; cbn [ins_run] in E.
  - injection E as <-. exists a. split; [reflexivity|]. cbn. destruct (String.eqb_spec (i_label a) ""); congruence.
  - cbn [forallb] in N. apply andb_true_iff in N as [N N']. destruct (ins_step W (Some a) c) as [i1|] eqn:S; [|discriminate].
    destruct (label_step c a i1 N S) as (b & -> & L). destruct (IH b i' N' E) as (b' & -> & L'). exists b'. split; [reflexivity|].
    rewrite L', L. cbn [flat_map]. rewrite app_comm_cons, first_nonempty_app. reflexivity.
Qed.

(* ---- lists of instructions ---- *)
Definition il_inv (l : list instruction) : Prop :=
  (forall i, In i l -> ins_valid i = true) /\
  distinct_by (fun x y => e_eqf (w_env W) (ins_string W x) (condenseWHSP (ins_string W y))) l.
Lemma il_push1 l i : il_inv l -> il_inv (push1 (inss_policy W) l i).
Proof.
  intros [V D]. unfold push1, inss_policy. destruct (inss_contains W l (ins_string W i)) eqn:C; [now split|].
  destruct (ins_valid i) eqn:E; [|now split]. split.
  - intros y Hy. apply in_app_iff in Hy as [Hy|[<-|[]]]; auto.
  - apply fop_snoc; [exact D|]. now apply (proj1 (existsb_none _ _)).
Qed.
Lemma il_push xs : forall l l', il_inv l -> inss_push W l xs = Some l' -> il_inv l'.
Proof.
  induction xs as [|x xs IH]; intros l l' H E; cbn [inss_push] in E; [now injection E as <-|]. destruct x as [s|i|].
  - destruct (parseInstruction W s) as [| |i]; [discriminate|now apply (IH l)|]. apply (IH _ _ (il_push1 l i H) E).
  - apply (IH _ _ (il_push1 l i H) E).
  - now apply (IH l).
Qed.
Lemma il_run h : forall l l', il_inv l -> inss_run W l h = Some l' -> il_inv l'.
Proof.
  induction h as [|c h IH]; intros l l' H E; cbn [inss_run] in E; [now injection E as <-|]. destruct c as [xs|].
  - destruct (inss_push W l xs) as [l1|] eqn:P; [|discriminate]. apply (IH l1); [now apply (il_push xs l)|exact E].
  - apply (IH (pop l)); [|exact E]. destruct H as [V D]. split; [intros i Hi; apply V; now apply in_pop|now apply fop_pop].
Qed.
End W.
