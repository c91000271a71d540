(* C103-C105: rules hold the lists they were made from. *)
From Coq Require Import String Ascii List PeanoNat NArith ZArith Bool Lia.
From Verif Require Import GoStr MMisc MAttr MKw MLists MRule MMeth MHeap MShare SShare.
Import ListNotations.
Open Scope string_scope.

(* ---- lemmas ---- *)
Lemma wr_length : forall {A} (h : list A) l c, List.length (wr h l c) = List.length h.
Proof. induction h as [|x h IH]; intros [|l] c; cbn; auto. Qed.
Lemma wr_same : forall {A} (h : list A) l c, (l < List.length h)%nat -> nth_error (wr h l c) l = Some c.
Proof. induction h as [|x h IH]; intros [|l] c L; cbn in *; [lia|lia|reflexivity|apply IH; lia]. Qed.
Lemma wr_other : forall {A} (h : list A) l c m, m <> l -> nth_error (wr h l c) m = nth_error h m.
Proof. induction h as [|x h IH]; intros [|l] c [|m] N; cbn; try reflexivity; try congruence. apply IH. congruence. Qed.
Lemma upd_same : forall V (e : nat -> V) x v, upd e x v x = v.
Proof. intros. unfold upd. now rewrite Nat.eqb_refl. Qed.
Lemma upd_other : forall V (e : nat -> V) x v y, y <> x -> upd e x v y = e y.
Proof. intros V e x v y N. unfold upd. now rewrite (proj2 (Nat.eqb_neq y x) N). Qed.
Lemma nth_new : forall {A} (h : list A) c, nth_error (h ++ [c])%list (List.length h) = Some c.
Proof. intros A h c. rewrite nth_error_app2 by lia. now rewrite Nat.sub_diag. Qed.
Lemma nth_old : forall {A} (h : list A) c l, (l < List.length h)%nat -> nth_error (h ++ [c])%list l = nth_error h l.
Proof. intros A h c l L. now rewrite nth_error_app1. Qed.
Lemma nth_lt : forall {A} (h : list A) l c, nth_error h l = Some c -> (l < List.length h)%nat.
Proof. intros A h l c E. apply nth_error_Some. congruence. Qed.

Definition wf (s : sst) : Prop :=
  (forall x l, s_lvar s x = Some l -> (l < List.length (s_lists s))%nat) /\
  (forall r n, s_rvar s r = Some n -> (n < List.length (s_rules s))%nat) /\
  (forall n c l, nth_error (s_rules s) n = Some c -> rc_ex c = RList l -> (l < List.length (s_lists s))%nat).
Lemma wf_start : wf s_start.
Proof. repeat split; try discriminate. intros n c l E. destruct n; discriminate E. Qed.

Lemma wf_with_rule : forall s n c, wf s -> (forall l, rc_ex c = RList l -> (l < List.length (s_lists s))%nat) -> wf (with_rule s n c).
Proof.
  intros s n c (A & B & C) H. repeat split; cbn [with_rule s_lists s_rules s_lvar s_rvar].
  - exact A.
  - intros r m E. rewrite wr_length. eauto.
  - intros m d l E X. destruct (Nat.eq_dec m n) as [->|N].
    + destruct (Nat.lt_ge_cases n (List.length (s_rules s))) as [L|L].
      * rewrite wr_same in E by trivial. injection E as ->. auto.
      * apply nth_lt in E. rewrite wr_length in E. lia.
    + rewrite wr_other in E by trivial. eauto.
Qed.
Lemma wf_with_cell : forall s l c, wf s -> wf (with_cell s l c).
Proof. intros s l c (A & B & C). repeat split; cbn [with_cell s_lists s_rules s_lvar s_rvar]; rewrite ?wr_length; eauto. Qed.
Lemma wf_new_rule : forall s r c, wf s -> (forall l, rc_ex c = RList l -> (l < List.length (s_lists s))%nat) -> wf (new_rule s r c).
Proof.
  intros s r c (A & B & C) H. repeat split; cbn [new_rule s_lists s_rules s_lvar s_rvar].
  - exact A.
  - intros q m E. rewrite app_length. cbn [List.length]. destruct (Nat.eq_dec q r) as [->|N].
    + rewrite upd_same in E. injection E as <-. lia.
    + rewrite upd_other in E by trivial. apply B in E. lia.
  - intros m d l E X. destruct (Nat.eq_dec m (List.length (s_rules s))) as [->|N].
    + rewrite nth_new in E. injection E as ->. auto.
    + assert (m < List.length (s_rules s))%nat by (apply nth_lt in E; rewrite app_length in E; cbn in E; lia).
      rewrite nth_old in E by trivial. eauto.
Qed.
Lemma rex_of_list : forall e l, rex_of e = RList l -> False.
Proof. intros [e|] l; discriminate. Qed.
Lemma wf_call : forall s r m, wf s -> wf (rule_call s r m).
Proof.
  intros s r m W. unfold rule_call. destruct (s_rvar s r) as [n|] eqn:R.
  - destruct (nth_error (s_rules s) n) as [c|] eqn:E; [|exact W]. destruct (negb _); [exact W|]. destruct (rcall_step m _) as [d|]; [|exact W].
    destruct (rcall_expr m) as [e|]; [apply wf_with_rule; [exact W|]; intros l X; now apply rex_of_list in X|].
    destruct (rc_ex c) as [|l|v] eqn:X; try (apply wf_with_rule; [exact W|]; discriminate).
    assert (L : (l < List.length (s_lists s))%nat) by (destruct W as (_ & _ & W3); eauto).
    assert (D : wf (with_rule s n (MkRC (rc_target c) d (RList l)))) by (apply wf_with_rule; [exact W|]; intros l' Y; injection Y as <-; exact L).
    destruct (c_ex d) as [[t|k b vs|st vs]|]; try exact D.
    destruct (nth_error (s_lists s) l) as [k'|]; [|exact W].
    apply wf_with_rule; [now apply wf_with_cell|]. cbn [rc_ex with_cell s_lists]. rewrite wr_length. intros l' Y. injection Y as <-. exact L.
  - destruct (rcall_step m None) as [c|]; [|exact W]. apply wf_new_rule; [exact W|]. intros l X. now apply rex_of_list in X.
Qed.

Section Prog.
Variable eqf : string -> string -> bool.
Variable dotnot : string -> option string.
Variable pad : bool.
Notation step := (s_step eqf dotnot pad).
Notation run := (s_run eqf dotnot pad).

Lemma wf_step : forall s c, wf s -> wf (step s c).
Proof.
  intros s c W. pose proof W as (A & B & C). destruct c as [x k|x y|x m|r x op|r x|r q|r m]; cbn [s_step].
  - repeat split; cbn [s_lists s_rules s_lvar s_rvar]; rewrite ?app_length; cbn [List.length].
    + intros y l E. destruct (Nat.eq_dec y x) as [->|N]; [rewrite upd_same in E; injection E as <-; lia|].
      rewrite upd_other in E by trivial. apply A in E. lia.
    + exact B.
    + intros n d l E X. pose proof (C n d l E X). lia.
  - repeat split; cbn [s_lists s_rules s_lvar s_rvar]; [|exact B|exact C].
    intros z l E. destruct (Nat.eq_dec z x) as [->|N]; [rewrite upd_same in E|rewrite upd_other in E by trivial]; eauto.
  - destruct (s_lvar s x) as [l|]; [|exact W]. destruct (nth_error (s_lists s) l) as [k|]; [|exact W]. now apply wf_with_cell.
  - assert (N : wf (MkS (s_lists s) (s_rules s) (s_lvar s) (upd (s_rvar s) r None))).
    { repeat split; cbn [s_lists s_rules s_lvar s_rvar]; [exact A| |exact C]. intros q n E.
      destruct (Nat.eq_dec q r) as [->|N]; [rewrite upd_same in E; discriminate|rewrite upd_other in E by trivial; eauto]. }
    destruct (s_lvar s x) as [l|] eqn:X; [|exact N]. destruct (nth_error (s_lists s) l) as [k|]; [|exact W].
    destruct (con_rule pad (l_con k) op) as [c|]; [|exact N].
    apply wf_new_rule; [exact W|]. cbn. intros l' Y. injection Y as <-. eauto.
  - destruct (s_rvar s r) as [n|]; [|exact W]. destruct (s_lvar s x) as [l|] eqn:X; [|exact W].
    destruct (nth_error (s_rules s) n) as [c|]; [|exact W]. apply wf_with_rule; [exact W|]. cbn. intros l' Y. injection Y as <-. eauto.
  - repeat split; cbn [s_lists s_rules s_lvar s_rvar]; [exact A| |exact C]. intros z n E.
    destruct (Nat.eq_dec z r) as [->|N]; [rewrite upd_same in E|rewrite upd_other in E by trivial]; eauto.
  - now apply wf_call.
Qed.
Lemma wf_run : forall p s, wf s -> wf (run s p).
Proof. induction p as [|c p IH]; intros s W; [exact W|]. cbn. apply IH. now apply wf_step. Qed.

(* a method other than SetExpression and SetQuoteStyle keeps the expression and the quotes *)
Lemma call_keeps : forall m r d, rcall_expr m = None -> is_style m = false -> rcall_step m (Some r) = Some d ->
  c_ex d = c_ex r /\ c_quoted d = c_quoted r.
Proof.
  intros [[]|[]] r d E S H; cbn [rcall_step br_step tr_step is_style rcall_expr] in *; try discriminate;
  unfold br_set_keyword, br_set_operator, br_paren, br_nopadding, tr_set_keyword, tr_set_operator, tr_nopadding, tr_init, br_init, on_cond in H;
  repeat match type of H with context [match ?k with KStr _ => _ | _ => _ end] => destruct k end;
  repeat match type of H with context [if ?b then _ else _] => destruct b end;
  injection H as <-; cbn; auto.
Qed.
(* SetQuoteStyle keeps all but the quotes *)
Lemma style_shape : forall m r d, is_style m = true -> rcall_step m (Some r) = Some d ->
  c_kw d = c_kw r /\ c_op d = c_op r /\ c_paren d = c_paren r /\ c_pad d = c_pad r /\
  (c_ex d = c_ex r \/ exists k b b' vs, c_ex r = Some (XList k b vs) /\ c_ex d = Some (XList k b' vs)).
Proof.
  intros [[]|[]] r d S H; cbn [rcall_step br_step tr_step is_style] in *; try discriminate;
  unfold br_set_quote_style, tr_set_quote_style in H; destruct (c_ex r) as [[t|[] b vs|st vs]|] eqn:X;
  injection H as <-; cbn; repeat split; rewrite ?X; auto; right; repeat eexists.
Qed.

(* what the rule of a variable shows depends on its cell and on the list it holds *)
Lemma rule_of_eq : forall s s' r n c,
  s_rvar s r = Some n -> s_rvar s' r = Some n -> nth_error (s_rules s) n = Some c -> nth_error (s_rules s') n = Some c ->
  (forall l, rc_ex c = RList l -> nth_error (s_lists s') l = nth_error (s_lists s) l) ->
  rule_of s' r = rule_of s r /\ rule_text s' r = rule_text s r.
Proof.
  intros s s' r n c R R' E E' L. unfold rule_of, rule_text. rewrite R, R', E, E'.
  assert (Q : rule_now (s_lists s') c = rule_now (s_lists s) c).
  { unfold rule_now, rex_value. destruct (rc_ex c) as [|l|v]; try reflexivity. now rewrite (L l eq_refl). }
  now rewrite Q.
Qed.
Lemma rule_of_none : forall s s' r, s_rvar s r = None -> s_rvar s' r = None -> rule_of s' r = rule_of s r /\ rule_text s' r = rule_text s r.
Proof. intros s s' r A B. unfold rule_of, rule_text. now rewrite A, B. Qed.

Lemma holds_eq : forall s r n c, s_rvar s r = Some n -> nth_error (s_rules s) n = Some c ->
  holds s r = match rc_ex c with RList l => Some l | _ => None end.
Proof. intros s r n c A B. unfold holds. now rewrite A, B. Qed.

Lemma call_expr_other : forall m, is_style m = true -> rcall_expr m = None.
Proof. now intros [[]|[]]. Qed.

(* the cells a method call can change *)
Lemma call_frame : forall s q m, wf s ->
  s_lvar (rule_call s q m) = s_lvar s /\
  (forall r, r <> q -> s_rvar (rule_call s q m) r = s_rvar s r) /\
  (forall n, s_rvar s q <> Some n -> (n < List.length (s_rules s))%nat -> nth_error (s_rules (rule_call s q m)) n = nth_error (s_rules s) n) /\
  (forall l, (l < List.length (s_lists s))%nat -> (is_style m = true -> holds s q <> Some l) ->
     nth_error (s_lists (rule_call s q m)) l = nth_error (s_lists s) l).
Proof.
  intros s q m W. unfold rule_call. destruct (s_rvar s q) as [n|] eqn:R.
  2:{ destruct (rcall_step m None) as [c|]; [|now auto]. cbn [new_rule s_lvar s_rvar s_rules s_lists]. split; [reflexivity|]. split; [|split].
      - intros r N. now rewrite upd_other.
      - intros k _ L. now rewrite nth_old.
      - auto. }
  destruct (nth_error (s_rules s) n) as [c|] eqn:E; [|now auto]. destruct (negb _); [now auto|].
  destruct (rcall_step m _) as [d|] eqn:D; [|now auto].
  assert (F : forall s' e, (forall l, (l < List.length (s_lists s))%nat -> (is_style m = true -> holds s q <> Some l) -> nth_error (s_lists s') l = nth_error (s_lists s) l) ->
     s_lvar s' = s_lvar s -> s_rvar s' = s_rvar s -> s_rules s' = s_rules s ->
     s_lvar (with_rule s' n (MkRC (rc_target c) d e)) = s_lvar s /\
     (forall r, r <> q -> s_rvar (with_rule s' n (MkRC (rc_target c) d e)) r = s_rvar s r) /\
     (forall n0, Some n <> Some n0 -> (n0 < List.length (s_rules s))%nat -> nth_error (s_rules (with_rule s' n (MkRC (rc_target c) d e))) n0 = nth_error (s_rules s) n0) /\
     (forall l, (l < List.length (s_lists s))%nat -> (is_style m = true -> holds s q <> Some l) ->
        nth_error (s_lists (with_rule s' n (MkRC (rc_target c) d e))) l = nth_error (s_lists s) l)).
  { intros s' e HL HV HR HU. cbn [with_rule s_lvar s_rvar s_rules s_lists]. rewrite HV, HR, HU. repeat split; trivial.
    intros k N _. apply wr_other. congruence. }
  destruct (rcall_expr m) as [e|] eqn:X; [now apply F|].
  destruct (rc_ex c) as [|l|v] eqn:Y; try now apply F.
  destruct (c_ex d) as [[t|k b vs|st vs]|] eqn:Z; try now apply F.
  destruct (nth_error (s_lists s) l) as [kc|] eqn:G; [|now auto].
  apply F; try reflexivity. intros l' L H. cbn [with_cell s_lists]. destruct (Nat.eq_dec l' l) as [->|N]; [|now apply wr_other].
  rewrite wr_same by trivial. rewrite G. f_equal. destruct (is_style m) eqn:S.
  - exfalso. apply H; [reflexivity|]. unfold holds. now rewrite R, E, Y.
  - destruct (call_keeps m _ d X S D) as [Q _]. rewrite Z in Q. unfold rule_now in Q. cbn [with_ex c_ex] in Q. rewrite Y in Q. cbn [rex_value] in Q.
    rewrite G in Q. injection Q as -> -> ->. now destruct kc.
Qed.

(* ---- C103 ---- *)
(* A statement that does not concern a rule leaves its fields and text as they were. *)
Theorem C103_frame : forall p c r, let s := run s_start p in ~ concerns s c r ->
  rule_of (step s c) r = rule_of s r /\ rule_text (step s c) r = rule_text s r.
Proof.
  intros p c r s H. assert (W : wf s) by (apply wf_run, wf_start). clearbody s. pose proof W as (WA & WB & WC).
  destruct (s_rvar s r) as [n|] eqn:R.
  2:{ apply rule_of_none; [exact R|]. destruct c as [x k|x y|x m|q x op|q x|q z|q m]; cbn [s_step concerns] in *; try exact R.
      - destruct (s_lvar s x) as [l|]; [|exact R]. now destruct (nth_error (s_lists s) l).
      - destruct (s_lvar s x) as [l|]; [|cbn; rewrite upd_other; auto].
        destruct (nth_error (s_lists s) l); [|exact R]. destruct (con_rule pad _ op); cbn; rewrite upd_other; auto.
      - destruct (s_rvar s q); [|exact R]. destruct (s_lvar s x); [|exact R]. now destruct (nth_error (s_rules s) n).
      - cbn. rewrite upd_other; auto.
      - destruct (call_frame s q m W) as (_ & F & _). rewrite F; auto. }
  destruct (nth_error (s_rules s) n) as [d|] eqn:E; [|apply WB in R; apply nth_error_None in E; lia].
  assert (L : forall l, rc_ex d = RList l -> (l < List.length (s_lists s))%nat) by eauto.
  pose proof (WB _ _ R) as RN. pose proof (holds_eq s r n d R E) as HH.
  destruct c as [x k|x y|x m|q x op|q x|q z|q m]; cbn [s_step concerns] in *.
  - apply rule_of_eq with (n := n) (c := d); trivial. intros l X. cbn. apply nth_old. auto.
  - apply rule_of_eq with (n := n) (c := d); trivial.
  - destruct (s_lvar s x) as [l|] eqn:X; [|now split]. destruct (nth_error (s_lists s) l) as [k|] eqn:G; [|now split].
    apply rule_of_eq with (n := n) (c := d); trivial. intros l' Y. cbn. apply wr_other. intros ->. apply H. split; [discriminate|]. now rewrite HH, Y.
  - assert (V : forall s', s_rvar s' = upd (s_rvar s) q None -> s_rvar s' r = Some n) by (intros s' ->; rewrite upd_other; auto).
    destruct (s_lvar s x) as [l|]; [|apply rule_of_eq with (n := n) (c := d); trivial; now apply V].
    destruct (nth_error (s_lists s) l) as [k|]; [|now split].
    destruct (con_rule pad (l_con k) op) as [c|].
    + apply rule_of_eq with (n := n) (c := d); trivial; cbn; [rewrite upd_other; auto|now rewrite nth_old].
    + apply rule_of_eq with (n := n) (c := d); trivial; now apply V.
  - destruct (s_rvar s q) as [nq|] eqn:Q; [|now split]. destruct (s_lvar s x) as [l|]; [|now split].
    destruct (nth_error (s_rules s) nq) as [dq|] eqn:EQ; [|now split].
    apply rule_of_eq with (n := n) (c := d); trivial. cbn. rewrite wr_other; trivial. intros <-. apply H. right. congruence.
  - apply rule_of_eq with (n := n) (c := d); trivial. cbn. rewrite upd_other; auto.
  - destruct (call_frame s q m W) as (F1 & F2 & F3 & F4).
    apply rule_of_eq with (n := n) (c := d); trivial.
    + rewrite F2; auto.
    + rewrite F3; trivial. intros Q. apply H. right. left. congruence.
    + intros l Y. apply F4; [auto|]. intros S Q. apply H. right. right. split; [exact S|]. rewrite Q, HH, Y. now split.
Qed.

Fixpoint unconcerned (s : sst) (q : list sstmt) (r : nat) : Prop :=
  match q with [] => True | c :: t => ~ concerns s c r /\ unconcerned (step s c) t r end.
Lemma run_app : forall p q s, run s (p ++ q)%list = run (run s p) q.
Proof. intros p q s. unfold s_run. apply fold_left_app. Qed.
Theorem C103_kept_partial : forall p q r, unconcerned (run s_start p) q r ->
  rule_text (run s_start (p ++ q)%list) r = rule_text (run s_start p) r.
Proof.
  intros p q. revert p. induction q as [|c q IH]; intros p r U; [now rewrite app_nil_r|].
  destruct U as [H U]. replace (p ++ c :: q)%list with ((p ++ [c]) ++ q)%list by now rewrite <- app_assoc.
  assert (E : run s_start (p ++ [c])%list = step (run s_start p) c) by now rewrite run_app.
  rewrite IH by now rewrite E. rewrite E. now apply C103_frame.
Qed.

Lemma BR_ex : forall kw op e e', BR pad kw op e' = on_cond (fun c => with_ex c e') (BR pad kw op e).
Proof.
  intros. unfold BR, br_set_operator, br_set_expression, br_set_keyword, br_init, on_cond.
  destruct (_ && _)%bool; [reflexivity|]. now destruct (op_arg op =? 0)%N.
Qed.
Lemma TR_ex : forall kw op e e', TR pad kw op e' = on_cond (fun c => with_ex c e') (TR pad kw op e).
Proof.
  intros. unfold TR, tr_set_operator, tr_set_expression, tr_set_keyword, tr_init, br_init, on_cond.
  destruct (op_arg op =? 0)%N; [now destruct kw|]. destruct kw; (destruct (_ && _)%bool; reflexivity).
Qed.
Lemma BR_some : forall kw op e, BR pad kw op e <> None.
Proof.
  intros. unfold BR, br_set_operator, br_set_expression, br_set_keyword, br_init, on_cond.
  destruct (_ && _)%bool; [discriminate|]. now destruct (op_arg op =? 0)%N.
Qed.
Lemma con_rule_same : forall c c' op d, con_kind c' = con_kind c -> keyword_of c' = keyword_of c -> con_rule pad c op = Some d ->
  con_target c' = con_target c /\ exists e, con_rule pad c' op = Some (with_ex d e).
Proof.
  intros c c' op d K W H. destruct c as [kw l|kw l|ta l|l], c' as [kw' l'|kw' l'|ta' l'|l']; try discriminate K; cbn [keyword_of con_target] in *; (split; [reflexivity|]);
  cbn [con_rule] in *; unfold bdns_cond, tdns_cond, ats_cond, oids_Eq, oids_Ne, ol_kind in *; rewrite ?W in *.
  - eexists. erewrite BR_ex, H. reflexivity.
  - eexists. erewrite TR_ex, H. reflexivity.
  - eexists. erewrite TR_ex, H. reflexivity.
  - destruct (op =? Eq)%N; [destruct (String.eqb _ _); [discriminate H|]|]; eexists; erewrite TR_ex, H; reflexivity.
Qed.
Lemma con_do_kind : forall c m, con_kind (con_do eqf dotnot c m) = con_kind c.
Proof. now intros [] []. Qed.

(* statements on lists keep a rule on the list it holds *)
Lemma lists_step : forall s c r x n d l k, wf s -> only_lists r x c ->
  s_rvar s r = Some n -> nth_error (s_rules s) n = Some d -> s_lvar s x = Some l -> nth_error (s_lists s) l = Some k ->
  s_rvar (step s c) r = Some n /\ nth_error (s_rules (step s c)) n = Some d /\ s_lvar (step s c) x = Some l /\
  exists k', nth_error (s_lists (step s c)) l = Some k' /\ l_sliced k' = l_sliced k /\ con_kind (l_con k') = con_kind (l_con k).
Proof.
  intros s c r x n d l k W O R E X G. pose proof W as (WA & WB & WC).
  pose proof (nth_lt _ _ _ E) as LE. pose proof (nth_lt _ _ _ G) as LG.
  assert (id : exists k', nth_error (s_lists s) l = Some k' /\ l_sliced k' = l_sliced k /\ con_kind (l_con k') = con_kind (l_con k)) by eauto.
  destruct c as [y c|y z|y m|q y op|q y|q z|q m]; cbn [s_step only_lists] in *; try contradiction.
  - cbn. rewrite upd_other, nth_old by auto. auto.
  - cbn. rewrite upd_other by auto. auto.
  - destruct (s_lvar s y) as [l'|]; [|auto]. destruct (nth_error (s_lists s) l') as [k'|] eqn:G'; [|auto]. cbn. repeat split; trivial.
    destruct (Nat.eq_dec l l') as [<-|N]; [|rewrite wr_other by trivial; exact id].
    rewrite wr_same by trivial. eexists. split; [reflexivity|]. cbn. rewrite con_do_kind. rewrite G in G'. injection G' as ->. auto.
  - destruct (s_lvar s y) as [l'|]; [|cbn; rewrite upd_other by auto; auto]. destruct (nth_error (s_lists s) l') as [k'|]; [|auto].
    destruct (con_rule pad _ op); cbn; rewrite upd_other by auto; rewrite ?nth_old by trivial; auto.
  - cbn. rewrite upd_other by auto. auto.
Qed.
Lemma lists_run : forall q s r x n d l k, wf s -> Forall (only_lists r x) q ->
  s_rvar s r = Some n -> nth_error (s_rules s) n = Some d -> s_lvar s x = Some l -> nth_error (s_lists s) l = Some k ->
  let s' := run s q in
  s_rvar s' r = Some n /\ nth_error (s_rules s') n = Some d /\ s_lvar s' x = Some l /\
  exists k', nth_error (s_lists s') l = Some k' /\ l_sliced k' = l_sliced k /\ con_kind (l_con k') = con_kind (l_con k).
Proof.
  induction q as [|c q IH]; intros s r x n d l k W F R E X G; [repeat split; eauto|].
  inversion F as [|? ? O F']; subst. destruct (lists_step s c r x n d l k W O R E X G) as (A & B & C & k' & D & S & K).
  destruct (IH (step s c) r x n d l k' (wf_step s c W) F' A B C D) as (A' & B' & C' & k'' & D' & S' & K').
  cbn [s_run fold_left]. repeat split; trivial. exists k''. split; [exact D'|split; congruence].
Qed.

(* A rule made from a list says at every later moment what a rule made from the list
   at that moment would say, as long as no method is called on rules; the keyword of
   a list of object identifiers has to be the same. *)
Theorem C103_follows : forall p q r x op c c' r',
  let s := run s_start p in
  list_of s x = Some c -> con_rule pad c op <> None ->
  Forall (only_lists r x) q ->
  let s' := run (step s (SMake r x op)) q in
  list_of s' x = Some c' -> keyword_of c' = keyword_of c ->
  rule_text s' r = rule_text (step s' (SMake r' x op)) r'.
Proof.
  intros p q r x op c c' r' s LX CR F s' LX' KW.
  assert (W : wf s) by (apply wf_run, wf_start). clearbody s. unfold list_of in LX.
  destruct (s_lvar s x) as [l|] eqn:X; [|discriminate]. destruct (nth_error (s_lists s) l) as [k|] eqn:G; [|discriminate].
  injection LX as <-. destruct (con_rule pad (l_con k) op) as [d|] eqn:D; [|now elim CR].
  assert (S1 : step s (SMake r x op) = new_rule s r (MkRC (con_target (l_con k)) d (RList l))) by (cbn [s_step]; now rewrite X, G, D).
  assert (W1 : wf (step s (SMake r x op))) by now apply wf_step. subst s'. rewrite S1 in *. set (s1 := new_rule s r _) in *.
  destruct (lists_run q s1 r x (List.length (s_rules s)) (MkRC (con_target (l_con k)) d (RList l)) l k) as (A & B & C & k' & G' & S' & K'); trivial.
  - cbn. apply upd_same.
  - cbn. apply nth_new.
  - set (s' := run s1 q) in *. clearbody s'. unfold list_of in LX'. rewrite C, G' in LX'. injection LX' as <-.
    destruct (con_rule_same (l_con k) (l_con k') op d K' KW D) as (T & e & D').
    cbn [s_step]. rewrite C, G', D'. unfold rule_text. rewrite A, B. cbn [new_rule s_rvar s_rules s_lists]. rewrite upd_same, nth_new. cbn [rc_target].
    rewrite T. unfold rule_now. cbn [rc_cond rc_ex]. reflexivity.
Qed.
(* only lists of object identifiers change their keyword (C50) *)
Theorem C103_keyword : forall c m, (match c with COids _ => False | _ => True end) -> keyword_of (con_do eqf dotnot c m) = keyword_of c.
Proof. now intros [] []. Qed.

(* Each single call does what the list types and their methods do on values (MLists.v,
   MMeth.v): Push and Pop change the list of the variable, Eq and Ne give the rule of
   its contents at that moment, as long as no rule's quotation style was written into
   the list. *)
Definition plain (s : sst) (x : nat) : Prop :=
  exists l k, s_lvar s x = Some l /\ nth_error (s_lists s) l = Some k /\ l_sliced k = false.
Lemma do_list : forall p x c m, let s := run s_start p in list_of s x = Some c -> list_of (step s (SDo x m)) x = Some (con_do eqf dotnot c m).
Proof.
  intros p x c m s H. unfold list_of in H. cbn [s_step]. destruct (s_lvar s x) as [l|] eqn:X; [|discriminate].
  destruct (nth_error (s_lists s) l) as [k|] eqn:K; [|discriminate]. injection H as <-. unfold list_of. cbn [with_cell s_lvar s_lists]. rewrite X.
  rewrite wr_same by now apply nth_lt in K. reflexivity.
Qed.
Lemma make_rule : forall p x c r op, let s := run s_start p in list_of s x = Some c -> plain s x ->
  match con_rule pad c op with
  | None => rule_of (step s (SMake r x op)) r = None
  | Some d => rule_of (step s (SMake r x op)) r = Some (with_ex d (Some (XList (con_kind c) false (con_texts c))))
  end.
Proof.
  intros p x c r op s H (l & k & X & K & S). unfold list_of in H. cbn [s_step]. rewrite X, K in *. injection H as <-.
  destruct (con_rule pad (l_con k) op) as [d|].
  - unfold rule_of. cbn [new_rule s_rvar s_rules s_lists]. rewrite upd_same, nth_new. unfold rule_now. cbn [rc_cond rc_ex rex_value]. rewrite K.
    unfold cell_expr. now rewrite S.
  - unfold rule_of. cbn [s_rvar]. now rewrite upd_same.
Qed.
Lemma BR_holds : forall q kw op ex d, BR q kw op ex = Some d -> c_ex d = ex.
Proof. intros q kw op ex d. unfold BR, br_set_expression. destruct (br_set_operator _ _) as [c|]; [|discriminate]. now intros [= <-]. Qed.
Lemma TR_holds : forall q kw op ex d, TR q kw op ex = Some d -> c_ex d = ex.
Proof. intros q kw op ex d. unfold TR, tr_set_expression. destruct (br_init _) as [c|]; [|discriminate]. now intros [= <-]. Qed.
Theorem C103_as_values : forall p x r, let s := run s_start p in
  (forall kw l d, list_of s x = Some (CBindDNs kw l) ->
     list_of (step s (SDo x (LDn d))) x = Some (CBindDNs kw (dn_step eqf "<invalid_bind_distinguished_name>" true kw l d))) /\
  (forall kw l d, list_of s x = Some (CTargetDNs kw l) ->
     list_of (step s (SDo x (LDn d))) x = Some (CTargetDNs kw (dn_step eqf "<invalid_target_distinguished_name>" false kw l d))) /\
  (forall ta l d, list_of s x = Some (CAttrs ta l) -> list_of (step s (SDo x (LAt d))) x = Some (CAttrs ta (at_step l d))) /\
  (forall l d, list_of s x = Some (COids l) -> list_of (step s (SDo x (LOid d))) x = Some (COids (oid_step eqf dotnot l d))) /\
  (plain s x ->
   (forall kw l, list_of s x = Some (CBindDNs kw l) ->
      rule_of (step s (SMake r x Eq)) r = bdns_Eq pad (Some (kw, l)) /\ rule_of (step s (SMake r x Ne)) r = bdns_Ne pad (Some (kw, l))) /\
   (forall kw l, list_of s x = Some (CTargetDNs kw l) ->
      rule_of (step s (SMake r x Eq)) r = tdns_Eq pad (Some (kw, l)) /\ rule_of (step s (SMake r x Ne)) r = tdns_Ne pad (Some (kw, l))) /\
   (forall ta l, list_of s x = Some (CAttrs ta l) ->
      rule_of (step s (SMake r x Eq)) r = ats_Eq pad (Some (ta, l)) /\ rule_of (step s (SMake r x Ne)) r = ats_Ne pad (Some (ta, l))) /\
   (forall l, list_of s x = Some (COids l) ->
      rule_of (step s (SMake r x Eq)) r = oids_Eq pad (Some l) /\ rule_of (step s (SMake r x Ne)) r = oids_Ne pad (Some l))).
Proof.
  intros p x r s. split; [intros kw l d H; exact (do_list p x _ (LDn d) H)|]. split; [intros kw l d H; exact (do_list p x _ (LDn d) H)|].
  split; [intros ta l d H; exact (do_list p x _ (LAt d) H)|]. split; [intros l d H; exact (do_list p x _ (LOid d) H)|]. intros P.
  assert (G : forall c op, list_of s x = Some c -> (forall d, con_rule pad c op = Some d -> c_ex d = Some (XList (con_kind c) false (con_texts c))) ->
              rule_of (step s (SMake r x op)) r = con_rule pad c op).
  { intros c op H E. assert (M := make_rule p x c r op H P). fold s in M. destruct (con_rule pad c op) as [d|]; [|exact M]. rewrite M. f_equal.
    rewrite <- (E d eq_refl). now destruct d. }
  split; [intros kw l H; split; apply (G _ _ H); cbn [con_rule]; unfold bdns_cond; intros d E; apply BR_holds in E; exact E|].
  split; [intros kw l H; split; apply (G _ _ H); cbn [con_rule]; unfold tdns_cond; intros d E; apply TR_holds in E; exact E|].
  split; [intros ta l H; split; apply (G _ _ H); cbn [con_rule]; unfold ats_cond; intros d E; apply TR_holds in E; exact E|].
  intros l H. split; [apply (G _ Eq H)|apply (G _ Ne H)]; cbn [con_rule N.eqb Eq Ne Pos.eqb]; unfold oids_Eq, oids_Ne.
  - destruct (String.eqb (ol_kind l) "<uninitialized>"); [discriminate|]. intros d E. apply TR_holds in E. exact E.
  - intros d E. apply TR_holds in E. exact E.
Qed.

(* ---- C104 ---- *)
(* Choosing a style for a rule leaves alone every rule that holds another list *)
Theorem C104_partial : forall p r q m, let s := run s_start p in is_style m = true ->
  s_rvar s q <> s_rvar s r -> holds s q <> holds s r \/ holds s q = None ->
  rule_of (step s (SCall r m)) q = rule_of s q /\ rule_text (step s (SCall r m)) q = rule_text s q.
Proof.
  intros p r q m s S D H. apply C103_frame. cbn [concerns]. fold s. intros [->|[E|(_ & N & E)]]; [now elim D|now elim D|].
  destruct H as [H|H]; [now elim H|]. now rewrite <- E in H.
Qed.

Lemma style_bind : forall r d style b vals, c_ex r = Some (XList LBindDN b vals) -> style_keyword LBindDN (c_kw r) ->
  (2 <= List.length vals)%nat -> rcall_step (set_style false style) (Some r) = Some d ->
  c_ex d = Some (XList LBindDN (style =? 0)%Z vals) /\ c_quoted d = negb (style =? 0)%Z.
Proof.
  intros r d style b vals X K L H. cbn [set_style rcall_step br_step br_set_quote_style] in H. rewrite X in H.
  assert (KK : ((br_keyword (Some r) =? BindUDN) || (br_keyword (Some r) =? BindGDN) || (br_keyword (Some r) =? BindRDN))%N%bool = true).
  { cbn [br_keyword]. cbn in K. destruct K as [<-|[<-|[<-|[]]]]; vm_compute; reflexivity. }
  rewrite KK in H. injection H as <-. cbn [with_quoted with_ex c_ex c_quoted]. split; [|reflexivity].
  unfold list_style. destruct (List.length vals <? 2)%nat eqn:Q; [apply Nat.ltb_lt in Q; lia|reflexivity].
Qed.
Lemma style_target : forall r d style k b vals, kind_target k = true -> c_ex r = Some (XList k b vals) -> style_keyword k (c_kw r) ->
  (2 <= List.length vals)%nat -> rcall_step (set_style true style) (Some r) = Some d ->
  c_ex d = Some (XList k (style =? 0)%Z vals) /\ c_quoted d = negb (style =? 0)%Z.
Proof.
  intros r d style k b vals T X K L H. cbn [set_style rcall_step tr_step tr_set_quote_style] in H. rewrite X in H.
  assert (Q : list_style style vals = (style =? 0)%Z).
  { unfold list_style. destruct (List.length vals <? 2)%nat eqn:Q; [apply Nat.ltb_lt in Q; lia|reflexivity]. }
  destruct k; try discriminate T; cbn [style_keyword In] in K;
  repeat match type of K with _ \/ _ => destruct K as [K|K] | False => destruct K end;
  unfold tr_keyword in H; rewrite <- K in H || rewrite K in H;
  match type of H with context [if ?b then _ else _] => let v := eval vm_compute in b in change b with v in H end;
  cbv iota in H; injection H as <-; cbn [with_quoted with_ex c_ex c_quoted]; now rewrite Q.
Qed.

(* the effect of a style on the heap *)
Lemma style_step : forall s r n c l k style, wf s -> s_rvar s r = Some n -> nth_error (s_rules s) n = Some c -> rc_ex c = RList l ->
  nth_error (s_lists s) l = Some k -> kind_target (con_kind (l_con k)) = rc_target c ->
  style_keyword (con_kind (l_con k)) (c_kw (rc_cond c)) -> (2 <= List.length (con_texts (l_con k)))%nat ->
  exists d, rule_call s r (set_style (rc_target c) style) =
    with_rule (with_cell s l (MkL (style =? 0)%Z (l_con k))) n (MkRC (rc_target c) d (RList l)) /\
    c_quoted d = negb (style =? 0)%Z /\ c_kw d = c_kw (rc_cond c).
Proof.
  intros s r n c l k style W R E X G T K L. unfold rule_call. rewrite R, E.
  assert (TT : rcall_target (set_style (rc_target c) style) = rc_target c) by now destruct (rc_target c). rewrite TT, eqb_reflx. cbn [negb].
  assert (XX : rule_now (s_lists s) c = Some (with_ex (rc_cond c) (Some (cell_expr k)))) by (unfold rule_now; rewrite X; cbn [rex_value]; now rewrite G).
  assert (SS : is_style (set_style (rc_target c) style) = true) by now destruct (rc_target c).
  rewrite XX. set (r0 := with_ex (rc_cond c) (Some (cell_expr k))).
  destruct (rcall_step (set_style (rc_target c) style) (Some r0)) as [d|] eqn:D.
  - exists d. rewrite (call_expr_other _ SS), X.
    destruct (style_shape _ _ _ SS D) as (KW & _).
    assert (Q : c_ex d = Some (XList (con_kind (l_con k)) (style =? 0)%Z (con_texts (l_con k))) /\ c_quoted d = negb (style =? 0)%Z).
    { destruct (rc_target c) eqn:RT.
      - exact (style_target r0 d style _ (l_sliced k) _ T eq_refl K L D).
      - destruct (con_kind (l_con k)) eqn:KC; try discriminate T. apply (style_bind r0 d style (l_sliced k) _); trivial. unfold r0, cell_expr. now rewrite KC. }
    destruct Q as [Q1 Q2]. rewrite Q1, G. repeat split; trivial.
  - destruct (rc_target c); cbn [set_style rcall_step br_step tr_step br_set_quote_style tr_set_quote_style] in D; unfold r0 in D;
    destruct (l_con k); unfold cell_expr, with_ex in D; cbn [c_ex] in D; destruct (con_kind _) in D; discriminate D.
Qed.

(* What it does to another rule that holds the same list: the quotes around the single
   values follow the choice, the quotes around all of them do not. *)
Theorem C104_exact : forall p r q t l k cr cq style, let s := run s_start p in
  target_rule s r = Some t -> holds s r = Some l -> holds s q = Some l -> s_rvar s q <> s_rvar s r ->
  nth_error (s_lists s) l = Some k -> kind_target (con_kind (l_con k)) = t ->
  rule_of s r = Some cr -> rule_of s q = Some cq -> style_keyword (con_kind (l_con k)) (c_kw cr) ->
  let vals := con_texts (l_con k) in (2 <= List.length vals)%nat ->
  let s' := step s (SCall r (set_style t style)) in
  exists cr' cq', rule_of s' r = Some cr' /\ rule_of s' q = Some cq' /\
    val_text cr' = (if (style =? 0)%Z then join " || " (map quote vals) else quote (join " || " vals)) /\
    val_text cq' = (let v := if (style =? 0)%Z then join " || " (map quote vals) else join " || " vals in if c_quoted cq then quote v else v) /\
    c_kw cq' = c_kw cq /\ c_op cq' = c_op cq /\ c_quoted cq' = c_quoted cq /\ c_paren cq' = c_paren cq /\ c_pad cq' = c_pad cq.
Proof.
  intros p r q t l k cr cq style s T HR HQ D G KT RR RQ SK vals L s'.
  assert (W : wf s) by (apply wf_run, wf_start). subst s'. clearbody s. unfold target_rule in T. unfold holds in HR, HQ. unfold rule_of in RR, RQ.
  destruct (s_rvar s r) as [n|] eqn:R; [|discriminate]. destruct (nth_error (s_rules s) n) as [c|] eqn:E; [|discriminate].
  destruct (rc_ex c) as [|l0|] eqn:X; try discriminate. injection HR as ->.
  destruct (s_rvar s q) as [nq|] eqn:Rq; [|discriminate]. destruct (nth_error (s_rules s) nq) as [cc|] eqn:Eq; [|discriminate].
  destruct (rc_ex cc) as [|l0|] eqn:Xq; try discriminate. injection HQ as ->. apply (f_equal (fun o => match o with Some x => x | None => t end)) in T. cbn in T. subst t.
  assert (KW : c_kw cr = c_kw (rc_cond c)) by (unfold rule_now in RR; injection RR as <-; reflexivity). rewrite KW in SK.
  destruct (style_step s r n c l k style W R E X G (eq_trans KT eq_refl) SK L) as (d & S & Qd & Kd).
  cbn [s_step]. rewrite S.
  assert (NN : nq <> n) by congruence.
  exists (with_ex d (Some (cell_expr (MkL (style =? 0)%Z (l_con k))))), (with_ex (rc_cond cc) (Some (cell_expr (MkL (style =? 0)%Z (l_con k))))).
  unfold rule_now in RQ. injection RQ as <-.
  assert (LN : (n < List.length (s_rules s))%nat) by (eapply nth_lt; eauto).
  assert (LL : (l < List.length (s_lists s))%nat) by (eapply nth_lt; eauto).
  split; [|split; [|split; [|split]]].
  - unfold rule_of. cbn [with_rule with_cell s_rvar s_rules s_lists]. rewrite R, wr_same by trivial. unfold rule_now. cbn [rc_cond rc_ex rex_value]. now rewrite wr_same.
  - unfold rule_of. cbn [with_rule with_cell s_rvar s_rules s_lists]. rewrite Rq, wr_other, Eq by trivial. unfold rule_now. rewrite Xq. cbn [rex_value]. now rewrite wr_same.
  - unfold val_text. cbn [with_ex c_ex c_quoted]. rewrite Qd. unfold cell_expr. cbn [expr_text l_sliced l_con]. unfold list_text. fold vals. now destruct (style =? 0)%Z.
  - unfold val_text. cbn [with_ex c_ex c_quoted]. unfold cell_expr. cbn [expr_text l_sliced l_con]. unfold list_text. fold vals. now destruct (style =? 0)%Z.
  - cbn. auto.
Qed.

(* ---- C105 ---- *)
Definition quoted_inv (s : sst) : Prop :=
  (forall n c l k, nth_error (s_rules s) n = Some c -> rc_ex c = RList l -> nth_error (s_lists s) l = Some k ->
     c_quoted (rc_cond c) = negb (l_sliced k) /\ kind_target (con_kind (l_con k)) = rc_target c) /\
  (forall n c n' c' l, nth_error (s_rules s) n = Some c -> rc_ex c = RList l ->
     nth_error (s_rules s) n' = Some c' -> rc_ex c' = RList l -> n = n') /\
  (forall l k, nth_error (s_lists s) l = Some k -> l_sliced k = true -> exists n c, nth_error (s_rules s) n = Some c /\ rc_ex c = RList l).
Lemma inv_start : quoted_inv s_start.
Proof. repeat split; intros; try (destruct n; discriminate). destruct l; discriminate. Qed.
Lemma con_rule_quoted : forall c op d, con_rule pad c op = Some d -> c_quoted d = true.
Proof.
  assert (B : forall kw op e d, BR pad kw op e = Some d -> c_quoted d = true).
  { intros kw op e d. unfold BR, br_set_operator, br_set_expression, br_set_keyword, br_init, on_cond.
    destruct (_ && _)%bool; [|destruct (op_arg op =? 0)%N]; intros H; injection H as <-; reflexivity. }
  assert (T : forall kw op e d, TR pad kw op e = Some d -> c_quoted d = true).
  { intros kw op e d. unfold TR, tr_set_operator, tr_set_expression, tr_set_keyword, tr_init, br_init, on_cond.
    destruct (op_arg op =? 0)%N; [|destruct (_ && _)%bool]; destruct kw; intros H; injection H as <-; reflexivity. }
  intros [kw l|kw l|ta l|l] op d H; cbn [con_rule] in H; unfold bdns_cond, tdns_cond, ats_cond, oids_Eq, oids_Ne in H; eauto.
  destruct (op =? Eq)%N; [destruct (String.eqb _ _); [discriminate|]|]; eauto.
Qed.

Lemma inv_lists_same : forall s s', s_rules s' = s_rules s -> s_lists s' = s_lists s -> quoted_inv s -> quoted_inv s'.
Proof. intros s s' A B I. unfold quoted_inv. rewrite A, B. exact I. Qed.
(* rewriting the fields of one rule, on the same expression *)
Lemma inv_with_rule : forall s n c c', quoted_inv s -> nth_error (s_rules s) n = Some c ->
  rc_ex c' = rc_ex c -> rc_target c' = rc_target c -> c_quoted (rc_cond c') = c_quoted (rc_cond c) -> quoted_inv (with_rule s n c').
Proof.
  intros s n c c' (A & B & C) E X T Q.
  assert (N : forall m d, nth_error (wr (s_rules s) n c') m = Some d ->
     exists d0, nth_error (s_rules s) m = Some d0 /\ rc_ex d = rc_ex d0 /\ rc_target d = rc_target d0 /\ c_quoted (rc_cond d) = c_quoted (rc_cond d0)).
  { intros m d H. destruct (Nat.eq_dec m n) as [->|N]; [|rewrite wr_other in H by trivial; eauto].
    rewrite wr_same in H by (eapply nth_lt; eauto). injection H as <-. eauto. }
  repeat split; cbn [with_rule s_rules s_lists].
  - destruct (N _ _ H) as (d0 & E0 & X0 & T0 & Q0). rewrite Q0. rewrite X0 in H0. eapply A; eauto.
  - destruct (N _ _ H) as (d0 & E0 & X0 & T0 & Q0). rewrite T0. rewrite X0 in H0. eapply A; eauto.
  - intros m d m' d' l H H0 H1 H2. destruct (N _ _ H) as (d0 & E0 & X0 & _). destruct (N _ _ H1) as (d1 & E1 & X1 & _).
    rewrite X0 in H0. rewrite X1 in H2. eapply B; eauto.
  - intros l k H S. destruct (C l k H S) as (m & d & M & Y). destruct (Nat.eq_dec m n) as [->|NN].
    + exists n, c'. split; [apply wr_same; eapply nth_lt; eauto|]. congruence.
    + exists m, d. now rewrite wr_other.
Qed.
Lemma inv_new_rule : forall s r c, wf s -> quoted_inv s ->
  (forall l, rc_ex c = RList l -> (forall n d, nth_error (s_rules s) n = Some d -> rc_ex d <> RList l) /\
     forall k, nth_error (s_lists s) l = Some k -> c_quoted (rc_cond c) = negb (l_sliced k) /\ kind_target (con_kind (l_con k)) = rc_target c) ->
  quoted_inv (new_rule s r c).
Proof.
  intros s r c W (A & B & C) H.
  assert (N : forall m d, nth_error (s_rules s ++ [c])%list m = Some d -> (m = List.length (s_rules s) /\ d = c) \/ nth_error (s_rules s) m = Some d).
  { intros m d E. destruct (Nat.eq_dec m (List.length (s_rules s))) as [->|N]; [rewrite nth_new in E; injection E as <-; auto|].
    right. pose proof (nth_lt _ _ _ E) as L. rewrite app_length in L. cbn in L. rewrite nth_old in E by lia. exact E. }
  split; [|split]; cbn [new_rule s_rules s_lists].
  - intros n d l k E X G. destruct (N _ _ E) as [[-> ->]|E']; [now apply (proj2 (H l X))|eauto].
  - intros n d n' d' l E X E' X'. destruct (N _ _ E) as [[-> ->]|F], (N _ _ E') as [[-> ->]|F']; trivial.
    + elim (proj1 (H l X) _ _ F' X').
    + elim (proj1 (H l X') _ _ F X).
    + eauto.
  - intros l k G S. destruct (C l k G S) as (n & d & E & X). exists n, d. split; [|exact X]. rewrite nth_old; [exact E|eapply nth_lt; eauto].
Qed.

Lemma inv_step : forall s c, wf s -> quoted_inv s -> tidy s c -> quoted_inv (step s c).
Proof.
  intros s c W I T. pose proof W as (WA & WB & WC). pose proof I as (A & B & C).
  destruct c as [x k|x y|x m|r x op|r x|r q|r m]; cbn [s_step tidy] in *.
  - assert (N : forall m d, nth_error (s_lists s ++ [MkL false k])%list m = Some d -> (m = List.length (s_lists s) /\ d = MkL false k) \/ nth_error (s_lists s) m = Some d).
    { intros m d E. destruct (Nat.eq_dec m (List.length (s_lists s))) as [->|N]; [rewrite nth_new in E; injection E as <-; auto|].
      right. pose proof (nth_lt _ _ _ E) as L. rewrite app_length in L. cbn in L. rewrite nth_old in E by lia. exact E. }
    split; [|split]; cbn [s_rules s_lists].
    + intros n d l c E X G. destruct (N _ _ G) as [[-> ->]|G']; [|eauto]. pose proof (WC _ _ _ E X). lia.
    + exact B.
    + intros l c G S. destruct (N _ _ G) as [[-> ->]|G']; [discriminate S|eauto].
  - now apply (inv_lists_same s).
  - destruct (s_lvar s x) as [l|]; [|exact I]. destruct (nth_error (s_lists s) l) as [k|] eqn:G; [|exact I].
    assert (N : forall l' k', nth_error (wr (s_lists s) l (MkL (l_sliced k) (con_do eqf dotnot (l_con k) m))) l' = Some k' ->
       exists k0, nth_error (s_lists s) l' = Some k0 /\ l_sliced k' = l_sliced k0 /\ con_kind (l_con k') = con_kind (l_con k0)).
    { intros l' k' H. destruct (Nat.eq_dec l' l) as [->|N]; [|rewrite wr_other in H by trivial; eauto].
      rewrite wr_same in H by (eapply nth_lt; eauto). injection H as <-. exists k. cbn. now rewrite con_do_kind. }
    split; [|split]; cbn [with_cell s_rules s_lists].
    + intros n d l' k' E X H. destruct (N _ _ H) as (k0 & G0 & S0 & K0). rewrite S0, K0. eauto.
    + exact B.
    + intros l' k' H S. destruct (N _ _ H) as (k0 & G0 & S0 & K0). rewrite S0 in S. eauto.
  - assert (N : quoted_inv (MkS (s_lists s) (s_rules s) (s_lvar s) (upd (s_rvar s) r None))) by now apply (inv_lists_same s).
    destruct (s_lvar s x) as [l|] eqn:X; [|exact N]. destruct (nth_error (s_lists s) l) as [k|] eqn:G; [|exact I].
    destruct (con_rule pad (l_con k) op) as [c|] eqn:D; [|exact N].
    apply inv_new_rule; trivial. cbn [rc_ex rc_cond rc_target]. intros l' Y. injection Y as <-. split; [intros n d E; eapply T; eauto|].
    intros k' G'. rewrite G in G'. injection G' as <-. rewrite (con_rule_quoted _ _ _ D). split; [|now destruct (l_con k)].
    destruct (l_sliced k) eqn:S; [|reflexivity]. destruct (C l k G S) as (n & d & E & Y). elim (T l n d X E Y).
  - contradiction.
  - now apply (inv_lists_same s).
  - destruct T as [TE TS]. unfold rule_call. destruct (s_rvar s r) as [n|] eqn:R.
    2:{ destruct (rcall_step m None) as [c|]; [|exact I]. apply inv_new_rule; trivial. cbn [rc_ex]. intros l Y. now apply rex_of_list in Y. }
    destruct (nth_error (s_rules s) n) as [c|] eqn:E; [|exact I].
    destruct (negb (Bool.eqb (rc_target c) (rcall_target m))) eqn:TT; [exact I|]. apply negb_false_iff, eqb_prop in TT.
    destruct (is_style m) eqn:S.
    + (* a style *)
      specialize (TS eq_refl). unfold holds, rule_of in TS. rewrite R, E in TS. rewrite TE.
      destruct (rc_ex c) as [|l|v] eqn:X.
      * destruct (rcall_step m _) as [d|] eqn:D; [|exact I].
        assert (NL : forall l, rc_ex (MkRC (rc_target c) d RNone) = RList l -> False) by discriminate.
        assert (I' : quoted_inv (with_rule s n (MkRC (rc_target c) d RNone))).
        { split; [|split]; cbn [with_rule s_rules s_lists].
          - intros n' d' l k E' X' G. destruct (Nat.eq_dec n' n) as [->|NN]; [rewrite wr_same in E' by (eapply nth_lt; eauto); injection E' as <-; now apply NL in X'|].
            rewrite wr_other in E' by trivial. eauto.
          - intros n1 d1 n2 d2 l E1 X1 E2 X2.
            destruct (Nat.eq_dec n1 n) as [->|N1]; [rewrite wr_same in E1 by (eapply nth_lt; eauto); injection E1 as <-; now apply NL in X1|].
            destruct (Nat.eq_dec n2 n) as [->|N2]; [rewrite wr_same in E2 by (eapply nth_lt; eauto); injection E2 as <-; now apply NL in X2|].
            rewrite wr_other in E1, E2 by trivial. eauto.
          - intros l k G SL. destruct (C l k G SL) as (n' & d' & E' & X'). exists n', d'. split; [|exact X']. rewrite wr_other; [exact E'|]. intros ->. congruence. }
        now destruct (c_ex d) as [[]|].
      * destruct (nth_error (s_lists s) l) as [k|] eqn:G.
        2:{ pose proof (WC _ _ _ E X) as L. apply nth_error_None in G. lia. }
        destruct (TS l k eq_refl G) as [L2 SK]. unfold rule_now in SK. cbn [with_ex c_kw] in SK.
        destruct (A _ _ _ _ E X G) as [QA KA].
        assert (M : exists style, m = set_style (rc_target c) style).
        { destruct m as [[]|[]]; try discriminate S; cbn [rcall_target] in TT; rewrite TT; eexists; reflexivity. }
        destruct M as [style ->].
        destruct (style_step s r n c l k style W R E X G KA SK L2) as (d & SS & QD & KD).
        unfold rule_call in SS. rewrite R, E, <- TT, eqb_reflx in SS. cbn [negb] in SS.
        assert (RE : rcall_expr (set_style (rc_target c) style) = None) by now destruct (rc_target c).
        rewrite RE, X, G in SS. rewrite SS.
        assert (LN : (n < List.length (s_rules s))%nat) by (eapply nth_lt; eauto).
        assert (LL : (l < List.length (s_lists s))%nat) by (eapply nth_lt; eauto).
        split; [|split]; cbn [with_rule with_cell s_rules s_lists].
        -- intros n' d' l' k' E' X' G'. destruct (Nat.eq_dec n' n) as [->|NN].
           ++ rewrite wr_same in E' by trivial. injection E' as <-. cbn [rc_ex] in X'. injection X' as <-. rewrite wr_same in G' by trivial. injection G' as <-.
              cbn [rc_cond rc_target l_sliced l_con]. split; [exact QD|exact KA].
           ++ rewrite wr_other in E' by trivial. destruct (Nat.eq_dec l' l) as [->|NL]; [elim NN; eapply B; eauto|].
              rewrite wr_other in G' by trivial. eauto.
        -- intros n1 d1 n2 d2 l' E1 X1 E2 X2.
           assert (P : forall n1 d1, nth_error (wr (s_rules s) n (MkRC (rc_target c) d (RList l))) n1 = Some d1 -> rc_ex d1 = RList l' ->
              exists d0, nth_error (s_rules s) n1 = Some d0 /\ rc_ex d0 = RList l').
           { intros n0 d0 E0 X0. destruct (Nat.eq_dec n0 n) as [->|N0]; [|rewrite wr_other in E0 by trivial; eauto].
             rewrite wr_same in E0 by trivial. injection E0 as <-. cbn in X0. exists c. split; [exact E|congruence]. }
           destruct (P _ _ E1 X1) as (a & Ea & Xa). destruct (P _ _ E2 X2) as (b & Eb & Xb). eauto.
        -- intros l' k' G' SL. destruct (Nat.eq_dec l' l) as [->|NL].
           ++ exists n, (MkRC (rc_target c) d (RList l)). now rewrite wr_same.
           ++ rewrite wr_other in G' by trivial. destruct (C _ _ G' SL) as (n' & d' & E' & X'). exists n', d'. split; [|exact X'].
              rewrite wr_other; [exact E'|]. intros ->. congruence.
      * destruct (rcall_step m _) as [d|] eqn:D; [|exact I].
        assert (I' : quoted_inv (with_rule s n (MkRC (rc_target c) d (RVal v)))).
        { split; [|split]; cbn [with_rule s_rules s_lists].
          - intros n' d' l k E' X' G. destruct (Nat.eq_dec n' n) as [->|NN]; [rewrite wr_same in E' by (eapply nth_lt; eauto); injection E' as <-; discriminate X'|].
            rewrite wr_other in E' by trivial. eauto.
          - intros n1 d1 n2 d2 l E1 X1 E2 X2.
            destruct (Nat.eq_dec n1 n) as [->|N1]; [rewrite wr_same in E1 by (eapply nth_lt; eauto); injection E1 as <-; discriminate X1|].
            destruct (Nat.eq_dec n2 n) as [->|N2]; [rewrite wr_same in E2 by (eapply nth_lt; eauto); injection E2 as <-; discriminate X2|].
            rewrite wr_other in E1, E2 by trivial. eauto.
          - intros l k G SL. destruct (C l k G SL) as (n' & d' & E' & X'). exists n', d'. split; [|exact X']. rewrite wr_other; [exact E'|]. intros ->. congruence. }
        now destruct (c_ex d) as [[]|].
    + (* another method *)
      destruct (rcall_step m _) as [d|] eqn:D; [|exact I]. rewrite TE.
      destruct (call_keeps m _ d TE S D) as [XD QD]. cbn [with_ex c_quoted] in QD.
      assert (I' : quoted_inv (with_rule s n (MkRC (rc_target c) d (rc_ex c)))) by (eapply inv_with_rule; eauto).
      destruct (rc_ex c) as [|l|v] eqn:X; try (now destruct (c_ex d) as [[]|]).
      cbn [rule_now with_ex c_ex rex_value] in XD. destruct (nth_error (s_lists s) l) as [k|] eqn:G.
      2:{ pose proof (WC _ _ _ E X) as L. apply nth_error_None in G. lia. }
      rewrite XD. unfold cell_expr.
      apply (inv_lists_same (with_rule s n (MkRC (rc_target c) d (RList l)))); [reflexivity| |exact I'].
      cbn [with_rule with_cell s_lists]. destruct k as [sl con]. cbn [l_sliced l_con].
      clear - G. revert l G. induction (s_lists s) as [|y h IH]; intros [|l] G; cbn in *; try congruence. now rewrite IH.
Qed.

Fixpoint tidy_run (s : sst) (p : list sstmt) : Prop :=
  match p with [] => True | c :: t => tidy s c /\ tidy_run (step s c) t end.
Lemma inv_run : forall p s, wf s -> quoted_inv s -> tidy_run s p -> quoted_inv (run s p).
Proof.
  induction p as [|c p IH]; intros s W I T; [exact I|]. destruct T as [T1 T2]. cbn [s_run fold_left].
  apply IH; [now apply wf_step|now apply inv_step|exact T2].
Qed.
(* In such programs the values of every rule made from a list are in quotes, together
   or each on its own, never both and never neither *)
Theorem C105_partial : forall p r l k c, tidy_run s_start p -> let s := run s_start p in
  holds s r = Some l -> nth_error (s_lists s) l = Some k -> rule_of s r = Some c ->
  well_quoted (val_text c) (con_texts (l_con k)).
Proof.
  intros p r l k c T s H G R. destruct (inv_run p s_start wf_start inv_start T) as (A & _). fold s in A. clearbody s.
  unfold holds, rule_of in *. destruct (s_rvar s r) as [n|]; [|discriminate]. destruct (nth_error (s_rules s) n) as [d|] eqn:E; [|discriminate].
  destruct (rc_ex d) as [|l'|] eqn:X; try discriminate. injection H as ->. destruct (A _ _ _ _ E X G) as [Q _].
  unfold rule_now in R. rewrite X in R. cbn [rex_value] in R. rewrite G in R. injection R as <-.
  unfold well_quoted, val_text. cbn [with_ex c_ex c_quoted]. rewrite Q. unfold cell_expr. cbn [expr_text]. unfold list_text.
  destruct (l_sliced k); cbn [negb]; auto.
Qed.
End Prog.

Definition e0 := String.eqb.
Definition d0 (s : string) : option string := Some s.
Definition two (a b : string) : content := CBindDNs BindUDN [MDN (UDN a); MDN (UDN b)].
(* A rule does not keep what it said when it was made: for each of the four types *)
Theorem C103_refuted :
  ~ (forall p x m r, rule_text (s_step e0 d0 true (s_run e0 d0 true s_start p) (SDo x m)) r = rule_text (s_run e0 d0 true s_start p) r) /\
  (let s := s_run e0 d0 true s_start [SList 0 (two "cn=a" "cn=b"); SMake 0 0 Eq] in
   rule_text s 0 = "userdn = " ++ quote "ldap:///cn=a || ldap:///cn=b" /\
   rule_text (s_step e0 d0 true s (SDo 0 (LDn DPop))) 0 = "userdn = " ++ quote "ldap:///cn=a") /\
  (let s := s_run e0 d0 true s_start [SList 0 (CTargetDNs Target [MDN (TDN "cn=a")]); SMake 0 0 Ne] in
   rule_text (s_step e0 d0 true s (SDo 0 (LDn (DPush [DStr "cn=b"])))) 0 = "( target != " ++ quote "ldap:///cn=a || ldap:///cn=b" ++ " )") /\
  (let s := s_run e0 d0 true s_start [SList 0 (CAttrs true [AT "cn"]); SMake 0 0 Eq] in
   rule_text (s_step e0 d0 true s (SDo 0 (LAt (APush [MLists.AStr "sn"])))) 0 = "( targetattr = " ++ quote "cn || sn" ++ " )") /\
  (let s := s_run e0 d0 true s_start [SList 0 (COids (MkOL TargetExtOp [OOid (mkOID d0 TargetExtOp "1.2.3")])); SMake 0 0 Eq] in
   rule_text (s_step e0 d0 true s (SDo 0 (LOid (OPush [MLists.OStr "1.2.4"])))) 0 = "( extop = " ++ quote "1.2.3 || 1.2.4" ++ " )").
Proof.
  split; [|vm_compute; auto 10]. intros H.
  specialize (H [SList 0 (two "cn=a" "cn=b"); SMake 0 0 Eq] 0%nat (LDn DPop) 0%nat). vm_compute in H. discriminate H.
Qed.

(* two rules from one list: the style of one gives the other quotes inside quotes *)
Definition prog104 : list sstmt :=
  [SList 0 (two "cn=a" "cn=b"); SMake 0 0 Eq; SMake 1 0 Ne; SCall 0 (RBind (BQuoteStyle 0))].
Theorem C104_refuted :
  ~ (forall p r q m, let s := s_run e0 d0 true s_start p in is_style m = true -> s_rvar s q <> s_rvar s r ->
       rule_text (s_step e0 d0 true s (SCall r m)) q = rule_text s q) /\
  (let s := s_run e0 d0 true s_start prog104 in
   rule_text s 0 = "userdn = " ++ quote "ldap:///cn=a" ++ " || " ++ quote "ldap:///cn=b" /\
   rule_text s 1 = "userdn != " ++ quote (quote "ldap:///cn=a" ++ " || " ++ quote "ldap:///cn=b")).
Proof.
  split; [|vm_compute; auto]. intros H.
  specialize (H [SList 0 (two "cn=a" "cn=b"); SMake 0 0 Eq; SMake 1 0 Ne] 0%nat 1%nat (RBind (BQuoteStyle 0)) eq_refl).
  assert (D : Some 1%nat <> Some 0%nat) by discriminate. specialize (H D). vm_compute in H. discriminate H.
Qed.

(* ways to lose the quotes or to double them, each without the others *)
Theorem C105_refuted :
  ~ (forall p r l k c, let s := s_run e0 d0 true s_start p in holds s r = Some l -> nth_error (s_lists s) l = Some k ->
       rule_of s r = Some c -> well_quoted (val_text c) (con_texts (l_con k))) /\
  (* two rules from one list *)
  rule_text (s_run e0 d0 true s_start prog104) 1 = "userdn != " ++ quote (quote "ldap:///cn=a" ++ " || " ++ quote "ldap:///cn=b") /\
  (* a style chosen while there is one value *)
  rule_text (s_run e0 d0 true s_start [SList 0 (CBindDNs BindUDN [MDN (UDN "cn=a")]); SMake 0 0 Eq; SCall 0 (RBind (BQuoteStyle 0)); SDo 0 (LDn (DPush [DStr "cn=b"]))]) 0
    = "userdn = ldap:///cn=a || ldap:///cn=b" /\
  (* another list given to the rule *)
  rule_text (s_run e0 d0 true s_start [SList 0 (two "cn=a" "cn=b"); SList 1 (two "cn=c" "cn=d"); SMake 0 0 Eq; SCall 0 (RBind (BQuoteStyle 0)); SSet 0 1]) 0
    = "userdn = ldap:///cn=c || ldap:///cn=d" /\
  rule_text (s_run e0 d0 true s_start [SList 0 (CAttrs true [AT "cn"; AT "sn"]); SMake 0 0 Eq; SCall 0 (RTarget (TQuoteStyle 0)); SSet 0 0]) 0
    = "( targetattr = " ++ quote (quote "cn" ++ " || " ++ quote "sn") ++ " )" /\
  (* a keyword the style does not concern *)
  rule_text (s_run e0 d0 true s_start [SList 0 (two "cn=a" "cn=b"); SMake 0 0 Eq; SCall 0 (RBind (BKeyword "ip")); SCall 0 (RBind (BQuoteStyle 0))]) 0
    = "ip = ldap:///cn=a || ldap:///cn=b".
Proof.
  split; [|vm_compute; auto 10]. intros H.
  specialize (H prog104 1%nat 0%nat (MkL true (two "cn=a" "cn=b"))).
  assert (D : exists c, rule_of (s_run e0 d0 true s_start prog104) 1 = Some c) by (vm_compute; eauto). destruct D as [c D].
  specialize (H c eq_refl eq_refl D). vm_compute in D. injection D as <-. destruct H as [H|H]; vm_compute in H; discriminate H.
Qed.

(* ---- concrete cases ---- *)
Example C103_values_witness : let s := s_run e0 d0 true s_start [SList 0 (two "cn=a" "cn=b"); SDo 0 (LDn DPop)] in
  plain s 0 /\ list_of s 0 = Some (CBindDNs BindUDN [MDN (UDN "cn=a")]) /\ rule_text (s_step e0 d0 true s (SMake 4 0 Eq)) 4 = "userdn = " ++ quote "ldap:///cn=a".
Proof. split; [do 2 eexists; repeat split; reflexivity|]. split; reflexivity. Qed.
Example C103_witness :
  let p := [SList 0 (two "cn=a" "cn=b"); SList 1 (CAttrs true [AT "cn"]); SMake 0 0 Eq; SMake 1 1 Ne] in
  let q := [SDo 1 (LAt (APush [MLists.AStr "sn"])); SCall 1 (RTarget (TQuoteStyle 0)); SLCopy 2 0; SMake 2 2 Ne; SRCopy 3 0] in
  unconcerned e0 d0 true (s_run e0 d0 true s_start p) q 0 /\
  rule_text (s_run e0 d0 true s_start (p ++ q)%list) 0 = "userdn = " ++ quote "ldap:///cn=a || ldap:///cn=b" /\
  rule_text (s_run e0 d0 true s_start (p ++ q)%list) 1 = "( targetattr != " ++ quote "cn" ++ " || " ++ quote "sn" ++ " )" /\
  (let q := [SLCopy 2 0; SDo 2 (LDn (DPush [DStr "cn=c"])); SList 3 (two "cn=x" "cn=y")] in
   Forall (only_lists 5 0) q /\
   rule_text (s_run e0 d0 true s_start (p ++ SMake 5 0 Ne :: q)%list) 5 = "userdn != " ++ quote "ldap:///cn=a || ldap:///cn=b || ldap:///cn=c").
Proof.
  cbv zeta. split; [|split; [vm_compute; reflexivity|split; [vm_compute; reflexivity|split; [|vm_compute; reflexivity]]]].
  - cbn [unconcerned]. repeat split; intros H; vm_compute in H;
    repeat match goal with H : _ /\ _ |- _ => destruct H | H : _ \/ _ |- _ => destruct H end; try discriminate; contradiction.
  - repeat (apply Forall_cons; [cbn; (exact I || discriminate)|]). apply Forall_nil.
Qed.
Example C104_witness :
  let s := s_run e0 d0 true s_start [SList 0 (two "cn=a" "cn=b"); SMake 0 0 Eq; SMake 1 0 Ne; SList 1 (two "cn=a" "cn=b"); SMake 2 1 Eq] in
  target_rule s 0 = Some false /\ holds s 0 = Some 0%nat /\ holds s 1 = Some 0%nat /\ s_rvar s 1 <> s_rvar s 0 /\ holds s 2 = Some 1%nat /\
  style_keyword LBindDN "userdn" /\
  rule_text (s_step e0 d0 true s (SCall 0 (set_style false 0))) 2 = "userdn = " ++ quote "ldap:///cn=a || ldap:///cn=b".
Proof. vm_compute. repeat split; auto. discriminate. Qed.
Example C105_witness :
  let p := [SList 0 (two "cn=a" "cn=b"); SMake 0 0 Eq; SCall 0 (RBind (BQuoteStyle 0)); SDo 0 (LDn (DPush [DStr "cn=c"])); SDo 0 (LDn DPop); SDo 0 (LDn DPop);
            SCall 0 (RBind (BParen true))] in
  tidy_run e0 d0 true s_start p /\ rule_text (s_run e0 d0 true s_start p) 0 = "( userdn = " ++ quote "ldap:///cn=a" ++ " )".
Proof.
  split; [|vm_compute; reflexivity]. cbn [tidy_run tidy].
  assert (S : forall s r l k, holds s r = Some 0%nat -> holds s r = Some l -> nth_error (s_lists s) 0 = Some (MkL false (two "cn=a" "cn=b")) ->
     nth_error (s_lists s) l = Some k -> l = 0%nat /\ k = MkL false (two "cn=a" "cn=b")).
  { intros s r l k A B C D. rewrite A in B. injection B as <-. rewrite C in D. injection D as <-. auto. }
  split; [exact I|]. split; [intros l n c E; vm_compute in E; injection E as <-; vm_compute; destruct n; discriminate|].
  split; [split; [reflexivity|intros _ l k A B; pose proof (fun X Y => S _ _ l k X A Y B) as Q; destruct Q as [-> ->]; [vm_compute; reflexivity|vm_compute; reflexivity|]; vm_compute; auto]|].
  repeat split; discriminate.
Qed.
Print Assumptions C103_frame.
Print Assumptions C103_kept_partial.
Print Assumptions C103_follows.
Print Assumptions C103_keyword.
Print Assumptions C103_as_values.
Print Assumptions C103_refuted.
Print Assumptions C104_partial.
Print Assumptions C104_exact.
Print Assumptions C104_refuted.
Print Assumptions C105_partial.
Print Assumptions C105_refuted.
