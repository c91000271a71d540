(* C107-C109: target rules, lists of them and instructions share their parts. *)
From Coq Require Import String Ascii List PeanoNat NArith ZArith Bool Lia.
From Verif Require Import GoStr MMisc MKw SKw PKw MLists MRule PRule MHeap THeap MAci PAci MInst SInst.
Import ListNotations.
Open Scope string_scope.

(* ---- lemmas ---- *)
Lemma nth_wr_same : forall {A} (h : list A) l c, (l < List.length h)%nat -> nth_error (wr h l c) l = Some c.
Proof. intros A h l c. exact (wr_same h l c). Qed.
Lemma nth_wr_other : forall {A} (h : list A) l c m, m <> l -> nth_error (wr h l c) m = nth_error h m.
Proof. intros A h l c m. exact (wr_other h l m c). Qed.
Lemma nth_new : forall {A} (h : list A) c, nth_error (h ++ [c])%list (List.length h) = Some c.
Proof. intros A h c. rewrite nth_error_app2 by lia. now rewrite Nat.sub_diag. Qed.
Lemma nth_old : forall {A} (h : list A) c l, (l < List.length h)%nat -> nth_error (h ++ [c])%list l = nth_error h l.
Proof. intros A h c l L. now rewrite nth_error_app1. Qed.
Lemma nth_lt : forall {A} (h : list A) l c, nth_error h l = Some c -> (l < List.length h)%nat.
Proof. intros A h l c E. apply nth_error_Some. congruence. Qed.

Definition wf (s : gst) : Prop :=
  (forall x n, g_rv s x = Some n -> (n < List.length (g_rules s))%nat) /\
  (forall t l, g_lv s t = Some l -> (l < List.length (g_lists s))%nat) /\
  (forall i n, g_iv s i = Some n -> (n < List.length (g_ins s))%nat) /\
  (forall l k n, nth_error (g_lists s) l = Some k -> In n (t_mem k) -> (n < List.length (g_rules s))%nat) /\
  (forall n c, nth_error (g_ins s) n = Some c -> (ic_trs c < List.length (g_lists s))%nat) /\
  (forall n m c d, nth_error (g_ins s) n = Some c -> nth_error (g_ins s) m = Some d -> ic_trs c = ic_trs d -> n = m).
Lemma wf_start : wf g_start.
Proof. repeat apply conj; cbn; try discriminate; intros [|n]; discriminate. Qed.

Section Prog.
Variable W : world.
Notation step := (g_step W).
Notation run := (g_run W).

Lemma wf_new_rule : forall s x r, wf s -> wf (new_rule s x r).
Proof.
  intros s x [c|] (A & B & C & D & E & F); cbn [new_rule with_rv]; repeat apply conj; cbn [with_rv with_lv with_iv with_list with_ins g_rules g_lists g_ins g_rv g_lv g_iv]; trivial.
  - intros y n. rewrite app_length. cbn [List.length]. destruct (Nat.eq_dec y x) as [->|N]; [rewrite upd_same; intros [= <-]; lia|].
    rewrite upd_other by exact N. intros H. apply A in H. lia.
  - intros l k n H I. rewrite app_length. cbn. specialize (D l k n H I). lia.
  - intros y n. destruct (Nat.eq_dec y x) as [->|N]; [rewrite upd_same; discriminate|rewrite upd_other by exact N; apply A].
Qed.
Lemma wf_with_rv : forall s x p, wf s -> (forall n, p = Some n -> (n < List.length (g_rules s))%nat) -> wf (with_rv s x p).
Proof.
  intros s x p (A & B & C & D & E & F) P. cbn [with_rv]; repeat apply conj; cbn [with_rv with_lv with_iv with_list with_ins g_rules g_lists g_ins g_rv g_lv g_iv]; trivial.
  intros y n. destruct (Nat.eq_dec y x) as [->|N]; [rewrite upd_same; apply P|rewrite upd_other by exact N; apply A].
Qed.
Lemma wf_with_lv : forall s x p, wf s -> (forall n, p = Some n -> (n < List.length (g_lists s))%nat) -> wf (with_lv s x p).
Proof.
  intros s x p (A & B & C & D & E & F) P. cbn [with_lv]; repeat apply conj; cbn [with_rv with_lv with_iv with_list with_ins g_rules g_lists g_ins g_rv g_lv g_iv]; trivial.
  intros y n. destruct (Nat.eq_dec y x) as [->|N]; [rewrite upd_same; apply P|rewrite upd_other by exact N; apply B].
Qed.
Lemma wf_with_iv : forall s x p, wf s -> (forall n, p = Some n -> (n < List.length (g_ins s))%nat) -> wf (with_iv s x p).
Proof.
  intros s x p (A & B & C & D & E & F) P. cbn [with_iv]; repeat apply conj; cbn [with_rv with_lv with_iv with_list with_ins g_rules g_lists g_ins g_rv g_lv g_iv]; trivial.
  intros y n. destruct (Nat.eq_dec y x) as [->|N]; [rewrite upd_same; apply P|rewrite upd_other by exact N; apply C].
Qed.
Lemma wf_with_list : forall s l k, wf s -> (forall n, In n (t_mem k) -> (n < List.length (g_rules s))%nat) -> wf (with_list s l k).
Proof.
  intros s l k (A & B & C & D & E & F) P. cbn [with_list]; repeat apply conj; cbn [with_rv with_lv with_iv with_list with_ins g_rules g_lists g_ins g_rv g_lv g_iv]; rewrite ?wr_len; trivial.
  intros m d n H I. destruct (Nat.eq_dec m l) as [->|N].
  - rewrite nth_wr_same in H by (apply nth_lt in H; now rewrite wr_len in H). injection H as <-. auto.
  - rewrite nth_wr_other in H by exact N. eauto.
Qed.
Lemma wf_with_ins : forall s n c d, wf s -> nth_error (g_ins s) n = Some c -> ic_trs d = ic_trs c -> wf (with_ins s n d).
Proof.
  intros s n c d (A & B & C & D & E & F) H T. pose proof (nth_lt _ _ _ H) as L. cbn [with_ins]; repeat apply conj; cbn [with_rv with_lv with_iv with_list with_ins g_rules g_lists g_ins g_rv g_lv g_iv]; rewrite ?wr_len; trivial.
  - intros m e G. destruct (Nat.eq_dec m n) as [->|N]; [rewrite nth_wr_same in G by exact L; injection G as <-; rewrite T; eauto|rewrite nth_wr_other in G by exact N; eauto].
  - intros m m' e e' G G' Q.
    assert (X : forall m e, nth_error (wr (g_ins s) n d) m = Some e -> exists e0, nth_error (g_ins s) m = Some e0 /\ ic_trs e0 = ic_trs e).
    { intros z ez GZ. destruct (Nat.eq_dec z n) as [->|N]; [rewrite nth_wr_same in GZ by exact L; injection GZ as <-; eauto|rewrite nth_wr_other in GZ by exact N; eauto]. }
    destruct (X _ _ G) as (e0 & G0 & Q0). destruct (X _ _ G') as (e1 & G1 & Q1). apply (F m m' e0 e1); congruence.
Qed.
Lemma wf_new_list : forall s, wf s -> wf (new_list s).
Proof.
  intros s (A & B & C & D & E & F). unfold new_list. repeat apply conj; cbn [with_rv with_lv with_iv with_list with_ins g_rules g_lists g_ins g_rv g_lv g_iv]; trivial.
  - intros t l H. rewrite app_length. cbn. apply B in H. lia.
  - intros l k n H I. destruct (Nat.eq_dec l (List.length (g_lists s))) as [->|N].
    + rewrite nth_new in H. injection H as <-. destruct I.
    + rewrite nth_old in H by (apply nth_lt in H; rewrite app_length in H; cbn in H; lia). eauto.
  - intros n c H. rewrite app_length. cbn. apply E in H. lia.
Qed.
Lemma wf_new_ins : forall s i, wf s -> wf (new_ins s i).
Proof.
  intros s i Wf. pose proof (wf_new_list s Wf) as W'. destruct Wf as (A & B & C & D & E & F). destruct W' as (A' & B' & C' & D' & E' & F'). unfold new_ins.
  apply wf_with_iv; cbn [g_ins]; [|intros n [= <-]; rewrite app_length; cbn; lia].
  repeat apply conj; cbn [with_rv with_lv with_iv with_list with_ins g_rules g_lists g_ins g_rv g_lv g_iv]; trivial.
  - intros j n H. rewrite app_length. apply C in H. cbn. lia.
  - intros n c H. rewrite app_length. cbn. destruct (Nat.eq_dec n (List.length (g_ins s))) as [->|N].
    + rewrite nth_new in H. injection H as <-. cbn. lia.
    + rewrite nth_old in H by (apply nth_lt in H; rewrite app_length in H; cbn in H; lia). apply E in H. lia.
  - intros n m c d G H Q.
    assert (X : forall n c, nth_error (g_ins s ++ [MkIC "" (List.length (g_lists s)) []])%list n = Some c ->
      (n = List.length (g_ins s) /\ ic_trs c = List.length (g_lists s)) \/ (nth_error (g_ins s) n = Some c /\ (ic_trs c < List.length (g_lists s))%nat)).
    { intros z e Z. destruct (Nat.eq_dec z (List.length (g_ins s))) as [->|N].
      - rewrite nth_new in Z. injection Z as <-. now left.
      - rewrite nth_old in Z by (apply nth_lt in Z; rewrite app_length in Z; cbn in Z; lia). right. eauto. }
    destruct (X _ _ G) as [[-> T]|[G0 T]], (X _ _ H) as [[-> T']|[G1 T']]; try lia. eauto.
Qed.
Lemma gpush1_in : forall s l p n, In n (gpush1 s l p) -> In n l \/ p = Some n.
Proof.
  intros s l [m|] n; cbn [gpush1]; [|auto]. destruct (_ && _)%bool; [|auto]. intros H. apply in_app_iff in H as [H|[->|[]]]; auto.
Qed.
Lemma push_many_in : forall s stop xs l n, In n (push_many stop (gpush1 s) l xs) -> In n l \/ In (Some n) xs.
Proof.
  intros s stop. induction xs as [|x xs IH]; intros l n H; [auto|]. cbn [push_many] in H.
  destruct (_ && _)%bool.
  - apply gpush1_in in H as [H|H]; [auto|right; left; auto].
  - apply IH in H as [H|H]; [|right; now right]. apply gpush1_in in H as [H|H]; [auto|right; left; auto].
Qed.
Lemma gtarget_in : forall s xs l n, In n (fold_left (gtarget1 s) xs l) -> In n l \/ In n xs.
Proof.
  intros s. induction xs as [|x xs IH]; intros l n H; [auto|]. cbn [fold_left] in H. apply IH in H as [H|H]; [|right; now right].
  unfold gtarget1 in H. destruct (negb _); [|auto]. apply gpush1_in in H as [H|[= ->]]; [auto|right; now left].
Qed.
Lemma members_lt : forall s t n, wf s -> In n (members s t) -> (n < List.length (g_rules s))%nat.
Proof.
  intros s t n (A & B & C & D & E & F) H. unfold members in H. destruct (g_lv s t) as [l|]; [|destruct H]. destruct (nth_error (g_lists s) l) eqn:G; [|destruct H]. eauto.
Qed.
Lemma wf_on_list : forall s t f, wf s -> (forall k n, In n (t_mem (f k)) -> In n (t_mem k) \/ (n < List.length (g_rules s))%nat) -> wf (on_list s t f).
Proof.
  intros s t f Wf H. unfold on_list. destruct (g_lv s t) as [l|]; [|exact Wf]. destruct (nth_error (g_lists s) l) as [k|] eqn:G; [|exact Wf].
  apply wf_with_list; [exact Wf|]. intros n I. apply H in I as [I|I]; [|exact I]. destruct Wf as (A & B & C & D & E & F). eauto.
Qed.
(* what Set on an instruction does to the state *)
Definition same_but (s s' : gst) (n l : nat) : Prop :=
  g_rules s' = g_rules s /\ g_rv s' = g_rv s /\ g_lv s' = g_lv s /\ g_iv s' = g_iv s /\
  (forall m, m <> n -> nth_error (g_ins s') m = nth_error (g_ins s) m) /\
  (forall m, m <> l -> nth_error (g_lists s') m = nth_error (g_lists s) m).
Lemma set1_same : forall s n x c, nth_error (g_ins s) n = Some c -> same_but s (set1 W s n x) n (ic_trs c).
Proof.
  intros s n x c G. unfold set1. rewrite G. destruct x as [a|t|x|r|l|]; cbn zeta; try (repeat apply conj; cbn; trivial; intros; now apply nth_wr_other);
  try (destruct (nth_error (g_lists s) (ic_trs c)); repeat apply conj; cbn; trivial; intros; now apply nth_wr_other).
Qed.
Lemma set1_cell : forall s n x c, nth_error (g_ins s) n = Some c -> exists d, nth_error (g_ins (set1 W s n x)) n = Some d /\ ic_trs d = ic_trs c.
Proof.
  intros s n x c G. pose proof (nth_lt _ _ _ G) as L. unfold set1. rewrite G.
  destruct x as [a|t|x|r|l|]; cbn zeta; try (destruct (nth_error (g_lists s) (ic_trs c))); cbn [with_ins with_list g_ins];
    rewrite ?nth_wr_same by exact L; eauto.
Qed.
Lemma wf_set1 : forall s n x, wf s -> wf (set1 W s n x).
Proof.
  intros s n x Wf. unfold set1. destruct (nth_error (g_ins s) n) as [c|] eqn:G; [|exact Wf].
  assert (P : forall f, (forall l m, In m (f l) -> In m l \/ (m < List.length (g_rules s))%nat) ->
    wf (match nth_error (g_lists s) (ic_trs c) with Some k => with_list s (ic_trs c) (MkT (t_spaced k) (f (t_mem k))) | None => s end)).
  { intros f H. destruct (nth_error (g_lists s) (ic_trs c)) as [k|] eqn:K; [|exact Wf]. apply wf_with_list; [exact Wf|]. cbn [t_mem].
    intros m I. apply H in I as [I|I]; [|exact I]. destruct Wf as (A & B & C & D & E & F). eauto. }
  destruct x as [a|t|x|r|l|]; cbn zeta; try (eapply wf_with_ins; [exact Wf|exact G|reflexivity]); try exact Wf.
  - apply (P (fun l => fold_left (gtarget1 s) (members s t) l)). intros l m I. apply gtarget_in in I as [I|I]; [auto|right]. now apply (members_lt s t).
  - apply (P (fun l => gpush1 s l (g_rv s x))). intros l m I. apply gpush1_in in I as [I|I]; [auto|right]. destruct Wf as (A & _). eauto.
Qed.
Lemma wf_sets : forall xs s n, wf s -> wf (fold_left (fun s x => set1 W s n x) xs s).
Proof. induction xs as [|x xs IH]; intros s n Wf; [exact Wf|]. cbn [fold_left]. apply IH. now apply wf_set1. Qed.
Lemma sets_same : forall xs s n c, nth_error (g_ins s) n = Some c ->
  same_but s (fold_left (fun s x => set1 W s n x) xs s) n (ic_trs c) /\
  exists d, nth_error (g_ins (fold_left (fun s x => set1 W s n x) xs s)) n = Some d /\ ic_trs d = ic_trs c.
Proof.
  induction xs as [|x xs IH]; intros s n c G; [split; [now repeat apply conj|eauto]|]. cbn [fold_left].
  destruct (set1_cell s n x c G) as (d & Gd & T). destruct (IH (set1 W s n x) n d Gd) as ((A & B & C & D & E & F) & e & Ge & Te).
  destruct (set1_same s n x c G) as (A' & B' & C' & D' & E' & F'). rewrite T in *. split; [|eauto].
  repeat apply conj; try congruence; intros m N; [rewrite E by exact N|rewrite F by exact N]; auto.
Qed.
Lemma wf_call : forall s x m, wf s -> wf (rule_call s x m).
Proof.
  intros s x m Wf. unfold rule_call. destruct (g_rv s x) as [n|] eqn:R.
  - destruct (tr_step (rval s n) m) as [d|]; [|exact Wf]. destruct Wf as (A & B & C & D & E & F).
    repeat apply conj; cbn [with_rv with_lv with_iv with_list with_ins g_rules g_lists g_ins g_rv g_lv g_iv]; rewrite ?wr_len; trivial.
  - destruct (tr_step None m); [now apply wf_new_rule|exact Wf].
Qed.
Lemma removelast_in : forall {A} (l : list A) n, In n (removelast l) -> In n l.
Proof. induction l as [|x l IH]; intros n H; [destruct H|]. cbn in H. destruct l; [destruct H|]. destruct H as [->|H]; [now left|right; auto]. Qed.
Lemma wf_step : forall s c, wf s -> wf (step s c).
Proof.
  intros s c Wf. destruct c as [x r|x y|x m|t|t u|t xs|x t|x t i|t b|i|i j|i xs|t i]; cbn [g_step].
  - now apply wf_new_rule.
  - apply wf_with_rv; [exact Wf|]. apply Wf.
  - now apply wf_call.
  - apply wf_with_lv; [now apply wf_new_list|]. intros n [= <-]. cbn. rewrite app_length. cbn. lia.
  - apply wf_with_lv; [exact Wf|]. apply Wf.
  - apply wf_on_list; [exact Wf|]. cbn [t_mem]. intros k n I. apply push_many_in in I as [I|I]; [auto|right].
    apply in_map_iff in I as (a & E & _). destruct a as [x|]; [|discriminate]. cbn in E. destruct Wf as (A & _). eauto.
  - apply wf_with_rv.
    + apply wf_on_list; [exact Wf|]. cbn [t_mem]. intros k n I. left. now apply removelast_in.
    + intros n I. apply nth_error_In, members_lt in I; [|exact Wf]. unfold on_list. destruct (g_lv s t); [|exact I]. now destruct (nth_error (g_lists s) n0).
  - apply wf_with_rv; [exact Wf|]. intros n I. apply nth_error_In, members_lt in I; assumption.
  - apply wf_on_list; [exact Wf|]. auto.
  - apply wf_with_iv; [exact Wf|discriminate].
  - apply wf_with_iv; [exact Wf|]. apply Wf.
  - destruct (g_iv s i) as [n|] eqn:I.
    + rewrite I. now apply wf_sets.
    + pose proof (wf_new_ins s i Wf). destruct (g_iv (new_ins s i) i); [now apply wf_sets|assumption].
  - apply wf_with_lv; [exact Wf|]. intros l. destruct (g_iv s i) as [n|]; [|discriminate]. destruct (nth_error (g_ins s) n) as [c|] eqn:G; [|discriminate].
    intros [= <-]. destruct Wf as (A & B & C & D & E & F). eauto.
Qed.
Lemma wf_run : forall p s, wf s -> wf (run s p).
Proof. induction p as [|c p IH]; intros s Wf; [exact Wf|]. apply IH. now apply wf_step. Qed.
(* ---- frames ---- *)
Definition keeps_list (s s' : gst) (l : nat) : Prop :=
  forall k, nth_error (g_lists s) l = Some k -> nth_error (g_lists s') l = Some k /\ forall n, In n (t_mem k) -> rval s' n = rval s n.
Lemma keeps_vals : forall s s' l, keeps_list s s' l -> forall k, nth_error (g_lists s) l = Some k ->
  nth_error (g_lists s') l = Some k /\ rvals s' (t_mem k) = rvals s (t_mem k).
Proof. intros s s' l K k G. destruct (K k G) as [A B]. split; [exact A|]. apply map_ext_in. exact B. Qed.
Lemma show_list_frame : forall s s' t, wf s -> g_lv s' t = g_lv s t -> (forall l, g_lv s t = Some l -> keeps_list s s' l) ->
  show_list s' t = show_list s t.
Proof.
  intros s s' t Wf E K. unfold show_list. rewrite E. destruct (g_lv s t) as [l|] eqn:L; [|reflexivity]. destruct Wf as (_ & B & _). apply B in L as LT.
  destruct (nth_error (g_lists s) l) as [k|] eqn:G; [|apply nth_error_None in G; lia].
  destruct (keeps_vals s s' l (K l eq_refl) k G) as [-> ->]. reflexivity.
Qed.
Lemma show_ins_frame : forall s s' i, wf s -> g_iv s' i = g_iv s i ->
  (forall n, g_iv s i = Some n -> nth_error (g_ins s') n = nth_error (g_ins s) n) ->
  (forall l, own_list s i = Some l -> keeps_list s s' l) -> show_ins s' i = show_ins s i.
Proof.
  intros s s' i Wf E N K. unfold show_ins, own_list in *. rewrite E. destruct (g_iv s i) as [n|]; [|reflexivity]. rewrite (N n eq_refl).
  destruct (nth_error (g_ins s) n) as [c|] eqn:G; [|reflexivity]. unfold show_cell. destruct Wf as (_ & _ & _ & _ & X & _). apply X in G.
  destruct (nth_error (g_lists s) (ic_trs c)) as [k|] eqn:H; [|apply nth_error_None in H; lia].
  destruct (keeps_vals s s' _ (K _ eq_refl) k H) as [-> ->]. reflexivity.
Qed.
(* what a statement may change in the list at place l *)
Definition touches (s : gst) (c : gstmt) (l : nat) : Prop :=
  match c with
  | GCall x _ => rule_in s x l
  | GPush u _ | GPop _ u | GNoPad u _ => g_lv s u = Some l
  | GSet i _ => own_list s i = Some l
  | _ => False
  end.
Lemma keeps_refl : forall s s' l, g_rules s' = g_rules s -> nth_error (g_lists s') l = nth_error (g_lists s) l -> keeps_list s s' l.
Proof. intros s s' l R E k G. rewrite E, G. split; [reflexivity|]. intros n _. unfold rval. now rewrite R. Qed.
Lemma keeps_new_rule : forall s x r l, wf s -> keeps_list s (new_rule s x r) l.
Proof.
  intros s x [c|] l Wf; [|now apply keeps_refl]. intros k G. split; [exact G|]. intros n I. unfold rval. cbn [new_rule g_rules]. apply rd_app.
  destruct Wf as (_ & _ & _ & D & _). eauto.
Qed.
Lemma own_some : forall s i n, wf s -> g_iv s i = Some n -> exists c, nth_error (g_ins s) n = Some c /\ own_list s i = Some (ic_trs c).
Proof.
  intros s i n (_ & _ & C & _) I. unfold own_list. rewrite I. apply C in I. destruct (nth_error (g_ins s) n) as [c|] eqn:G; [eauto|apply nth_error_None in G; lia].
Qed.
Lemma new_ins_cell : forall s i, nth_error (g_ins (new_ins s i)) (List.length (g_ins s)) = Some (MkIC "" (List.length (g_lists s)) []) /\
  g_iv (new_ins s i) i = Some (List.length (g_ins s)).
Proof.
  intros s i. unfold new_ins. cbn [with_iv g_ins g_iv]. split; [apply nth_new|]. rewrite upd_same, app_length. cbn. f_equal. lia.
Qed.
Lemma step_keeps : forall s c l, wf s -> (l < List.length (g_lists s))%nat -> ~ touches s c l -> keeps_list s (step s c) l.
Proof.
  intros s c l Wf L T. destruct c as [x r|x y|x m|t|t u|t xs|x t|x t i|t b|i|i j|i xs|t i]; cbn [g_step touches] in *;
    try (apply keeps_refl; reflexivity); try (now apply keeps_new_rule).
  - unfold rule_call. destruct (g_rv s x) as [n|] eqn:R.
    + destruct (tr_step (rval s n) m) as [d|]; [|now apply keeps_refl]. intros k G. split; [exact G|]. intros p I. unfold rval. cbn [g_rules].
      apply wr_other. intros ->. apply T. exists n. unfold mem_of. now rewrite G.
    + destruct (tr_step None m); [now apply keeps_new_rule|now apply keeps_refl].
  - apply keeps_refl; [reflexivity|]. cbn. now apply nth_old.
  - unfold on_list. destruct (g_lv s t) as [u|]; [|now apply keeps_refl]. destruct (nth_error (g_lists s) u); [|now apply keeps_refl].
    apply keeps_refl; [reflexivity|]. cbn. apply nth_wr_other. congruence.
  - unfold on_list. destruct (g_lv s t) as [u|]; [|now apply keeps_refl]. destruct (nth_error (g_lists s) u); [|now apply keeps_refl].
    apply keeps_refl; [reflexivity|]. cbn. apply nth_wr_other. congruence.
  - unfold on_list. destruct (g_lv s t) as [u|]; [|now apply keeps_refl]. destruct (nth_error (g_lists s) u); [|now apply keeps_refl].
    apply keeps_refl; [reflexivity|]. cbn. apply nth_wr_other. congruence.
  - destruct (g_iv s i) as [n|] eqn:I.
    + rewrite I. destruct (own_some s i n Wf I) as (c & G & O). destruct (sets_same xs s n c G) as ((A & _ & _ & _ & _ & F) & _).
      apply keeps_refl; [exact A|]. apply F. congruence.
    + destruct (new_ins_cell s i) as [G ->]. destruct (sets_same xs _ _ _ G) as ((A & _ & _ & _ & _ & F) & _).
      apply keeps_refl; [exact A|]. rewrite F by (cbn; lia). cbn. now apply nth_old.
Qed.
Lemma on_list_lv : forall s t f, g_lv (on_list s t f) = g_lv s /\ g_iv (on_list s t f) = g_iv s /\ g_ins (on_list s t f) = g_ins s.
Proof. intros s t f. unfold on_list. destruct (g_lv s t) as [u|]; [|easy]. now destruct (nth_error (g_lists s) u). Qed.
Lemma call_vars : forall s x m, g_lv (rule_call s x m) = g_lv s /\ g_iv (rule_call s x m) = g_iv s /\ g_ins (rule_call s x m) = g_ins s.
Proof. intros s x m. unfold rule_call. destruct (g_rv s x) as [n|]; [destruct (tr_step (rval s n) m)|destruct (tr_step None m)]; easy. Qed.
Lemma new_rule_vars : forall s x r, g_lv (new_rule s x r) = g_lv s /\ g_iv (new_rule s x r) = g_iv s /\ g_ins (new_rule s x r) = g_ins s.
Proof. now intros s x [c|]. Qed.
Lemma set_vars : forall s i xs, wf s -> let s' := step s (GSet i xs) in g_lv s' = g_lv s /\ (forall j, j <> i -> g_iv s' j = g_iv s j) /\
  (forall n, g_iv s i <> Some n -> (n < List.length (g_ins s))%nat -> nth_error (g_ins s') n = nth_error (g_ins s) n).
Proof.
  intros s i xs Wf. cbn [g_step]. destruct (g_iv s i) as [n|] eqn:I.
  - rewrite I. destruct (own_some s i n Wf I) as (c & G & _). destruct (sets_same xs s n c G) as ((_ & _ & B & C & D & _) & _). rewrite B, C.
    repeat apply conj; trivial. intros m N _. apply D. congruence.
  - destruct (new_ins_cell s i) as [G ->]. destruct (sets_same xs _ _ _ G) as ((_ & _ & B & C & D & _) & _). rewrite B, C.
    repeat apply conj; [reflexivity| |].
    + intros j N. cbn. now rewrite upd_other.
    + intros m _ L. rewrite D by lia. cbn. now apply nth_old.
Qed.
Lemma frame_list : forall s c t, wf s -> ~ concerns_list s c t -> show_list (step s c) t = show_list s t.
Proof.
  intros s c t Wf N. pose proof Wf as (_ & WB & _). apply show_list_frame; [exact Wf| |].
  - destruct c as [x r|x y|x m|u|u v|u xs|x u|x u i|u b|i|i j|i xs|u i]; cbn [g_step concerns_list] in *; try reflexivity;
      try (cbn; rewrite upd_other by congruence; reflexivity); try (now rewrite (proj1 (on_list_lv _ _ _))).
    + now rewrite (proj1 (new_rule_vars _ _ _)).
    + now rewrite (proj1 (call_vars _ _ _)).
    + cbn [with_rv g_lv]. now rewrite (proj1 (on_list_lv _ _ _)).
    + destruct (set_vars s i xs Wf) as (A & _). exact (f_equal (fun f => f t) A).
  - intros l L. apply step_keeps; [exact Wf|eauto|]. intros T. apply N.
    destruct c; cbn [touches concerns_list] in *; try contradiction; try (split; congruence). eauto.
Qed.
Lemma frame_ins : forall s c i, wf s -> ~ concerns_ins s c i -> show_ins (step s c) i = show_ins s i.
Proof.
  intros s c i Wf N. pose proof Wf as (_ & _ & WC & _ & WE & _). apply show_ins_frame; [exact Wf| | |].
  - destruct c as [x r|x y|x m|u|u v|u xs|x u|x u j|u b|j|j k|j xs|u j]; cbn [g_step concerns_ins] in *; try reflexivity;
      try (cbn; rewrite upd_other by congruence; reflexivity).
    + now destruct (new_rule_vars s x r) as (_ & -> & _).
    + now destruct (call_vars s x m) as (_ & -> & _).
    + match goal with |- g_iv (on_list ?s ?u ?f) _ = _ => now destruct (on_list_lv s u f) as (_ & -> & _) end.
    + cbn [with_rv g_iv]. match goal with |- g_iv (on_list ?s ?u ?f) _ = _ => now destruct (on_list_lv s u f) as (_ & -> & _) end.
    + match goal with |- g_iv (on_list ?s ?u ?f) _ = _ => now destruct (on_list_lv s u f) as (_ & -> & _) end.
    + destruct (set_vars s j xs Wf) as (_ & A & _). refine (A i _). intros ->. auto.
  - intros n I. destruct c as [x r|x y|x m|u|u v|u xs|x u|x u j|u b|j|j k|j xs|u j]; cbn [g_step concerns_ins] in *; try reflexivity.
    + now destruct (new_rule_vars s x r) as (_ & _ & ->).
    + now destruct (call_vars s x m) as (_ & _ & ->).
    + match goal with |- nth_error (g_ins (on_list ?s ?u ?f)) _ = _ => now destruct (on_list_lv s u f) as (_ & _ & ->) end.
    + cbn [with_rv g_ins]. match goal with |- nth_error (g_ins (on_list ?s ?u ?f)) _ = _ => now destruct (on_list_lv s u f) as (_ & _ & ->) end.
    + match goal with |- nth_error (g_ins (on_list ?s ?u ?f)) _ = _ => now destruct (on_list_lv s u f) as (_ & _ & ->) end.
    + destruct (set_vars s j xs Wf) as (_ & _ & A). refine (A n _ _); [|eauto]. intros E. apply N. right. split; congruence.
  - intros l L. assert (LL : (l < List.length (g_lists s))%nat).
    { unfold own_list in L. destruct (g_iv s i) as [n|]; [|discriminate]. destruct (nth_error (g_ins s) n) as [d|] eqn:G; [|discriminate]. injection L as <-. eauto. }
    apply step_keeps; [exact Wf|exact LL|]. intros T. apply N.
    destruct c as [x r|x y|x m|u|u v|u xs|x u|x u j|u b|j|j k|j xs|u j]; cbn [touches concerns_ins] in *; try contradiction; try (split; congruence); [eauto|].
    right. unfold own_list in L, T. destruct (g_iv s i) as [n|]; [|discriminate]. destruct (nth_error (g_ins s) n) as [d|] eqn:G; [|discriminate].
    destruct (g_iv s j) as [n'|]; [|discriminate]. destruct (nth_error (g_ins s) n') as [d'|] eqn:G'; [|discriminate].
    destruct Wf as (_ & _ & _ & _ & _ & F). split; [discriminate|]. f_equal. apply (F n' n d' d); congruence.
Qed.
Lemma run_app : forall p q s, run s (p ++ q)%list = run (run s p) q.
Proof. intros p q s. unfold g_run. apply fold_left_app. Qed.

(* ---- Push ---- *)
Lemma rvals_len : forall s l, List.length (rvals s l) = List.length l.
Proof. intros. apply map_length. Qed.
Lemma gpush_val : forall s l a, rvals s (gpush1 s l (garg_ref s a)) = trs_push1 (rvals s l) (push_value s a).
Proof.
  intros s l [x|]; [|reflexivity]. cbn [garg_ref push_value trs_push1]. unfold show_rule, push1. destruct (g_rv s x) as [n|]; cbn [gpush1].
  - rewrite rvals_len. destruct (_ && _)%bool; [|reflexivity]. unfold rvals. now rewrite map_app.
  - cbn [trs_policy]. now rewrite andb_false_r.
Qed.
Lemma push_many_val : forall s stop xs l,
  rvals s (push_many stop (gpush1 s) l (map (garg_ref s) xs)) = trs_push stop (rvals s l) (map (push_value s) xs).
Proof.
  intros s stop. induction xs as [|x xs IH]; intros l; [reflexivity|]. unfold trs_push in *. cbn [map push_many]. rewrite <- gpush_val.
  rewrite !rvals_len. destruct (_ && _)%bool; [reflexivity|]. apply IH.
Qed.
Lemma gtarget_val : forall s xs l, rvals s (fold_left (gtarget1 s) xs l) = fold_left targetPush1 (rvals s xs) (rvals s l).
Proof.
  intros s. induction xs as [|x xs IH]; intros l; [reflexivity|]. change (rvals s (x :: xs)) with (rval s x :: rvals s xs). cbn [fold_left]. rewrite IH. f_equal.
  unfold gtarget1, targetPush1. destruct (negb _); [|reflexivity]. cbn [gpush1 trs_push1]. unfold push1. rewrite rvals_len.
  destruct (_ && _)%bool; [|reflexivity]. unfold rvals. now rewrite map_app.
Qed.
(* a rule already there is refused *)
Lemma target_again : forall l r, In r l -> targetPush1 l r = l.
Proof.
  intros l r I. unfold targetPush1. destruct (negb _); [|reflexivity]. cbn [trs_push1]. unfold push1, trs_policy.
  assert (C : trs_contains l (tr_kwname r) = true) by (apply existsb_exists; exists r; split; [exact I|apply eqfold_refl]).
  rewrite C. destruct r; rewrite ?andb_false_r; reflexivity.
Qed.
Lemma targets_again : forall xs l, (forall r, In r xs -> In r l) -> fold_left targetPush1 xs l = l.
Proof. induction xs as [|x xs IH]; intros l H; [reflexivity|]. cbn [fold_left]. rewrite target_again by (apply H; now left). apply IH. intros r I. apply H. now right. Qed.
(* ---- an invariant of all lists ---- *)
Section Inv.
Variable P : gst -> list nat -> Prop.
Hypothesis P_nil : forall s, P s [].
Hypothesis P_rules : forall s s' l, g_rules s' = g_rules s -> P s l -> P s' l.
Hypothesis P_more : forall s s' l, wf s -> (forall n, In n l -> rval s' n = rval s n) -> P s l -> P s' l.
Hypothesis P_push : forall s l p, P s l -> P s (gpush1 s l p).
Hypothesis P_pop : forall s l, P s l -> P s (removelast l).
Definition all_lists (s : gst) : Prop := forall l k, nth_error (g_lists s) l = Some k -> P s (t_mem k).
Lemma P_many : forall s stop xs l, P s l -> P s (push_many stop (gpush1 s) l xs).
Proof. intros s stop. induction xs as [|x xs IH]; intros l H; [exact H|]. cbn [push_many]. destruct (_ && _)%bool; auto. Qed.
Lemma P_targets : forall s xs l, P s l -> P s (fold_left (gtarget1 s) xs l).
Proof. intros s. induction xs as [|x xs IH]; intros l H; [exact H|]. cbn [fold_left]. apply IH. unfold gtarget1. destruct (negb _); auto. Qed.
Lemma all_with_list : forall s l k, all_lists s -> P s (t_mem k) -> all_lists (with_list s l k).
Proof.
  intros s l k A H m d G. apply (P_rules s); [reflexivity|]. cbn [with_list g_lists] in G. destruct (Nat.eq_dec m l) as [->|N].
  - rewrite nth_wr_same in G by (apply nth_lt in G; now rewrite wr_len in G). now injection G as <-.
  - rewrite nth_wr_other in G by exact N. eauto.
Qed.
Lemma all_same : forall s s', g_rules s' = g_rules s -> g_lists s' = g_lists s -> all_lists s -> all_lists s'.
Proof. intros s s' R L A l k G. apply (P_rules s); [exact R|]. rewrite L in G. eauto. Qed.
Lemma all_on_list : forall s t f, (forall k, P s (t_mem k) -> P s (t_mem (f k))) -> all_lists s -> all_lists (on_list s t f).
Proof.
  intros s t f H A. unfold on_list. destruct (g_lv s t) as [l|]; [|exact A]. destruct (nth_error (g_lists s) l) as [k|] eqn:G; [|exact A].
  apply all_with_list; [exact A|]. eauto.
Qed.
Lemma all_set1 : forall s n x, all_lists s -> all_lists (set1 W s n x).
Proof.
  intros s n x A. unfold set1. destruct (nth_error (g_ins s) n) as [c|]; [|exact A].
  destruct x as [a|t|x|r|l|]; cbn zeta; try (apply (all_same s); [reflexivity|reflexivity|exact A]); try exact A;
  (destruct (nth_error (g_lists s) (ic_trs c)) as [k|] eqn:G; [|exact A]); (apply all_with_list; [exact A|]); cbn [t_mem].
  - apply P_targets. eauto.
  - apply P_push. eauto.
Qed.
Lemma all_sets : forall xs s n, all_lists s -> all_lists (fold_left (fun s x => set1 W s n x) xs s).
Proof. induction xs as [|x xs IH]; intros s n A; [exact A|]. cbn [fold_left]. apply IH. now apply all_set1. Qed.
Lemma all_new : forall s s', g_rules s' = g_rules s -> g_lists s' = (g_lists s ++ [MkT false []])%list -> all_lists s -> all_lists s'.
Proof.
  intros s s' R L A l k G. rewrite L in G. destruct (Nat.eq_dec l (List.length (g_lists s))) as [->|N].
  - rewrite nth_new in G. injection G as <-. apply P_nil.
  - rewrite nth_old in G by (apply nth_lt in G; rewrite app_length in G; cbn in G; lia). apply (P_rules s); [exact R|]. eauto.
Qed.
Lemma all_new_rule : forall s x r, wf s -> all_lists s -> all_lists (new_rule s x r).
Proof.
  intros s x r Wf A l k G. assert (L : g_lists (new_rule s x r) = g_lists s) by now destruct r. rewrite L in G.
  apply (P_more s); [exact Wf| |eauto]. destruct (keeps_new_rule s x r l Wf k G) as [_ H]. exact H.
Qed.
Lemma all_step : forall s c, wf s -> all_lists s -> (forall x m, c = GCall x m -> all_lists (rule_call s x m)) -> all_lists (step s c).
Proof.
  intros s c Wf A C. destruct c as [x r|x y|x m|t|t u|t xs|x t|x t i|t b|i|i j|i xs|t i]; cbn [g_step]; try (apply (all_same s); [reflexivity|reflexivity|exact A]).
  - now apply all_new_rule.
  - now apply C.
  - now apply (all_new s).
  - apply all_on_list; [|exact A]. intros k. cbn [t_mem]. apply P_many.
  - eapply (all_same (on_list s t (fun k => MkT (t_spaced k) (pop (t_mem k))))); [reflexivity|reflexivity|].
    apply all_on_list; [|exact A]. intros k. cbn [t_mem]. apply P_pop.
  - apply all_on_list; [|exact A]. auto.
  - destruct (g_iv s i) as [n|] eqn:I; [rewrite I; now apply all_sets|].
    assert (B : all_lists (new_ins s i)) by now apply (all_new s). destruct (g_iv (new_ins s i) i); [now apply all_sets|exact B].
Qed.
End Inv.

(* ---- C107 ---- *)
Theorem C107_frame : forall p c t, let s := run g_start p in ~ concerns_list s c t ->
  show_list (step s c) t = show_list s t /\ list_text W (step s c) t = list_text W s t.
Proof.
  intros p c t s N. assert (E : show_list (step s c) t = show_list s t) by (apply frame_list; [apply wf_run, wf_start|exact N]).
  split; [exact E|]. unfold list_text. now rewrite E.
Qed.
Lemma on_list_shows : forall s t f b l, wf s -> show_list s t = Some (b, l) -> exists u k, g_lv s t = Some u /\ nth_error (g_lists s) u = Some k /\ t_spaced k = b /\ rvals s (t_mem k) = l /\
  show_list (on_list s t f) t = Some (t_spaced (f k), rvals s (t_mem (f k))).
Proof.
  intros s t f b l Wf H. unfold show_list in H. destruct (g_lv s t) as [u|] eqn:L; [|discriminate]. destruct (nth_error (g_lists s) u) as [k|] eqn:G; [|discriminate].
  injection H as <- <-. exists u, k. repeat apply conj; trivial. unfold on_list. rewrite L, G. unfold show_list. cbn [with_list g_lv g_lists]. rewrite L.
  rewrite nth_wr_same by (now apply nth_lt in G). reflexivity.
Qed.
(* Push accepts exactly what the rules shown at that moment allow (C37 has the conditions) *)
Theorem C107_push : forall p t b l xs, let s := run g_start p in show_list s t = Some (b, l) ->
  show_list (step s (GPush t xs)) t = Some (b, trs_push (w_stop W) l (map (push_value s) xs)).
Proof.
  intros p t b l xs s H. assert (Wf : wf s) by apply wf_run, wf_start. clearbody s. cbn [g_step].
  destruct (on_list_shows s t (fun k => MkT (t_spaced k) (push_many (w_stop W) (gpush1 s) (t_mem k) (map (garg_ref s) xs))) b l Wf H) as (u & k & _ & _ & <- & <- & ->).
  cbn [t_spaced t_mem]. now rewrite push_many_val.
Qed.
Lemma map_removelast : forall {A B} (f : A -> B) l, map f (removelast l) = removelast (map f l).
Proof. induction l as [|x l IH]; [reflexivity|]. cbn. destruct l; [reflexivity|]. cbn in *. now rewrite IH. Qed.
Lemma nth_last : forall {A} (l : list A) d, nth (pred (List.length l)) l d = last l d.
Proof. induction l as [|x l IH]; intros d; [reflexivity|]. destruct l as [|y l]; [reflexivity|]. cbn in *. apply IH. Qed.
Theorem C107_pop : forall p x t b l, let s := run g_start p in show_list s t = Some (b, l) -> let s' := step s (GPop x t) in
  show_list s' t = Some (b, removelast l) /\ show_rule s' x = last l None.
Proof.
  intros p x t b l s H s'. assert (Wf : wf s) by apply wf_run, wf_start. subst s'. clearbody s. cbn [g_step].
  destruct (on_list_shows s t (fun k => MkT (t_spaced k) (pop (t_mem k))) b l Wf H) as (u & k & L & G & <- & <- & E). split.
  - unfold show_list in *. cbn [with_rv g_lv g_lists t_spaced t_mem] in *. unfold pop, rvals in E. rewrite map_removelast in E.
    destruct (g_lv (on_list s t _) t); [|discriminate]. destruct (nth_error (g_lists (on_list s t _)) n); [|discriminate]. exact E.
  - unfold show_rule. cbn [with_rv g_rv]. rewrite upd_same. unfold members. rewrite L, G.
    rewrite <- nth_last. unfold rvals. rewrite map_length. 
    destruct (nth_error (t_mem k) (pred (List.length (t_mem k)))) as [n|] eqn:N.
    + rewrite (nth_indep _ None (rval s n)) by (rewrite map_length; now apply nth_lt in N). rewrite map_nth. rewrite (nth_error_nth _ _ _ N).
      unfold rval. cbn [with_rv g_rules]. unfold on_list. now rewrite L, G.
    + apply nth_error_None in N. rewrite nth_overflow; [reflexivity|]. now rewrite map_length.
Qed.
Lemma keeps_keyword : forall r m, (forall kw, m <> TKeyword kw) -> tr_keyword (tr_step (Some r) m) = tr_keyword (Some r).
Proof.
  intros r m N. destruct m as [|kw|op|e|b|z]; try reflexivity; [now elim (N kw)| |].
  - cbn [tr_step]. unfold tr_set_operator. destruct (_ =? 0)%N; [reflexivity|]. destruct (_ && _)%bool; reflexivity.
  - cbn [tr_step tr_set_quote_style]. destruct (c_ex r) as [[ | k b v| ]|]; try reflexivity. destruct k; reflexivity.
Qed.
Definition P_inv (s : gst) (l : list nat) : Prop := trs_inv (rvals s l).
Lemma rvals_rules : forall s s' l, g_rules s' = g_rules s -> rvals s' l = rvals s l.
Proof. intros s s' l R. apply map_ext. intros n. unfold rval. now rewrite R. Qed.
Lemma inv_push : forall s l p, P_inv s l -> P_inv s (gpush1 s l p).
Proof.
  intros s l [n|] H; [|exact H]. unfold P_inv in *. cbn [gpush1]. destruct (_ && _)%bool eqn:E; [|exact H]. apply andb_true_iff in E as [_ E].
  unfold rvals. rewrite map_app. cbn [map]. fold (rvals s l). apply (policy_spec _ _ (proj1 H)) in E as [K N]. destruct H as [A B]. split.
  - intros r I. apply in_app_iff in I as [I|[<-|[]]]; auto.
  - rewrite map_app. now apply NoDup_snoc'.
Qed.
Lemma inv_step : forall s c, wf s -> calm s c -> all_lists P_inv s -> all_lists P_inv (step s c).
Proof.
  intros s c Wf C A. apply all_step; trivial.
  - intros s0. split; [easy|constructor].
  - intros s0 s1 l R H. unfold P_inv. now rewrite (rvals_rules s0 s1).
  - intros s0 s1 l _ E H. unfold P_inv, rvals in *. now rewrite (map_ext_in _ _ _ E).
  - exact inv_push.
  - intros s0 l H. unfold P_inv, rvals in *. rewrite map_removelast. now apply pop_inv.
  - intros x m ->. unfold rule_call. destruct (g_rv s x) as [n|] eqn:R.
    2:{ destruct (tr_step None m); [|exact A]. apply all_new_rule; trivial. intros s0 s1 l _ E H. unfold P_inv, rvals in *. now rewrite (map_ext_in _ _ _ E). }
    destruct (tr_step (rval s n) m) as [d|] eqn:D; [|exact A]. intros l k G. cbn [g_lists] in G. specialize (A l k G).
    assert (L : (n < List.length (g_rules s))%nat) by (destruct Wf as (WA & _); eauto).
    unfold P_inv in *. apply (inv_keywords (rvals s (t_mem k))); [|exact A]. unfold rvals. rewrite !map_map. apply map_ext_in. intros q I.
    unfold rval at 1. cbn [g_rules]. destruct (Nat.eq_dec q n) as [->|N].
    + rewrite wr_same by exact L. rewrite <- D. unfold rval in *. destruct (rd_some (g_rules s) n L) as [c0 C0]. rewrite C0 in *. apply keeps_keyword.
      intros kw ->. apply (C l). exists n. unfold mem_of. now rewrite G.
    + rewrite wr_other by exact N. reflexivity.
Qed.
Fixpoint calm_run (s : gst) (p : list gstmt) : Prop :=
  match p with [] => True | c :: p => calm s c /\ calm_run (step s c) p end.
Lemma inv_run : forall p s, wf s -> all_lists P_inv s -> calm_run s p -> all_lists P_inv (run s p).
Proof. induction p as [|c p IH]; intros s Wf A CR; [exact A|]. destruct CR as [C R]. apply IH; [now apply wf_step|now apply inv_step|exact R]. Qed.
(* the keywords of a list are different in programs that call SetKeyword only on rules in no list *)
Theorem C107_partial : forall p t b l, calm_run g_start p -> show_list (run g_start p) t = Some (b, l) -> different_keywords l.
Proof.
  intros p t b l C H. assert (A : all_lists P_inv (run g_start p)).
  { apply inv_run; [apply wf_start| |exact C]. intros u k G. destruct u; discriminate G. }
  unfold show_list in H. destruct (g_lv _ t) as [u|]; [|discriminate]. destruct (nth_error _ u) as [k|] eqn:G; [|discriminate]. injection H as <- <-.
  destruct (A u k G) as [X Y]. now split.
Qed.
(* never more than nine, in any program *)
Theorem C107_nine : forall p t b l, show_list (run g_start p) t = Some (b, l) -> (List.length l <= 9)%nat.
Proof.
  intros p t b l H. assert (A : all_lists (fun _ l => (List.length l <= 9)%nat) (run g_start p)).
  { assert (X : forall p s, wf s -> all_lists (fun _ l => (List.length l <= 9)%nat) s -> all_lists (fun _ l => (List.length l <= 9)%nat) (run s p)).
    { intros q. induction q as [|c q IH]; intros s Wf A; [exact A|]. apply IH; [now apply wf_step|]. apply all_step; trivial.
      - intros _. cbn. lia.
      - intros s0 l0 [n|] L; [|exact L]. cbn [gpush1]. destruct (_ && _)%bool eqn:E; [|exact L]. apply andb_true_iff in E as [E _].
        apply Nat.ltb_lt in E. rewrite app_length. cbn. lia.
      - intros s0 l0 L. rewrite removelast_firstn_len, firstn_length. lia.
      - intros x m _. unfold rule_call. destruct (g_rv s x); [destruct (tr_step (rval s n) m)|destruct (tr_step None m)]; exact A. }
    apply X; [apply wf_start|]. intros u k G. destruct u; discriminate G. }
  unfold show_list in H. destruct (g_lv _ t) as [u|]; [|discriminate]. destruct (nth_error _ u) as [k|] eqn:G; [|discriminate]. injection H as <- <-.
  rewrite rvals_len. exact (A u k G).
Qed.
Lemma put_map : forall s n d l i, nth_error l i = Some n -> NoDup l -> forall f, (forall q, q <> n -> f q = rval s q) -> f n = d -> map f l = put (map (rval s) l) i d.
Proof.
  intros s n d. induction l as [|x l IH]; intros i E N f F D; [destruct i; discriminate|]. inversion N as [|y l0 NI ND]; subst. destruct i as [|i]; cbn [nth_error map put] in *.
  - injection E as ->. f_equal. apply map_ext_in. intros q I. apply F. intros ->. contradiction.
  - rewrite F by (intros ->; apply NI; now apply (nth_error_In l i)). f_equal. now apply IH.
Qed.
(* a method called on a rule in the list shows in the list, at its place *)
Theorem C107_follows : forall p t b l x i m, let s := run g_start p in show_list s t = Some (b, l) -> NoDup (map tr_keyword l) ->
  (i < List.length l)%nat -> nth_error (members s t) i = g_rv s x ->
  let r := nth i l None in
  show_list (step s (GCall x m)) t = Some (b, match tr_step r m with None => l | Some d => put l i (Some d) end) /\ show_rule s x = r.
Proof.
  intros p t b l x i m s H ND LT E r. assert (Wf : wf s) by apply wf_run, wf_start. clearbody s. unfold show_list, members in *. destruct (g_lv s t) as [u|] eqn:L; [|discriminate].
  destruct (nth_error (g_lists s) u) as [k|] eqn:G; [|discriminate]. injection H as <- <-. rewrite rvals_len in LT.
  destruct (nth_error (t_mem k) i) as [n|] eqn:N; [|apply nth_error_None in N; lia]. symmetry in E.
  assert (RV : r = rval s n). { unfold r, rvals. rewrite (nth_indep _ None (rval s n)) by now rewrite map_length. rewrite map_nth. now rewrite (nth_error_nth _ _ _ N). }
  split; [|unfold show_rule; now rewrite E, RV]. cbn [g_step]. unfold rule_call. rewrite E, <- RV. destruct (tr_step r m) as [d|] eqn:D; [|now rewrite L, G].
  cbn [g_lv g_lists]. rewrite L, G. do 2 f_equal. assert (LN : (n < List.length (g_rules s))%nat) by (destruct Wf as (WA & _); eauto).
  unfold rvals. apply (put_map s n (Some d)); trivial.
  - unfold rvals in ND. rewrite map_map in ND. now apply NoDup_map_inv in ND.
  - intros q Q. unfold rval. cbn [g_rules]. now apply wr_other.
  - unfold rval. cbn [g_rules]. now apply wr_same.
Qed.
Lemma put_in : forall {A} (l : list A) i x y, (i < List.length l)%nat -> (In y (put l i x) <-> y = x \/ exists j, j <> i /\ nth_error l j = Some y).
Proof.
  induction l as [|z l IH]; intros i x y L; [cbn in L; lia|]. destruct i as [|i]; cbn [put In].
  - split.
    + intros [->|I]; [now left|]. right. apply In_nth_error in I as [j J]. now exists (S j).
    + intros [->|(j & N & J)]; [now left|]. right. destruct j as [|j]; [now elim N|]. now apply (nth_error_In l j).
  - cbn in L. rewrite IH by lia. split.
    + intros [->|[->|(j & N & J)]]; [right; exists 0%nat; split; [discriminate|reflexivity]|now left|]. right. exists (S j). split; [congruence|exact J].
    + intros [->|(j & N & J)]; [auto|]. destruct j as [|j]; [injection J as ->; auto|]. right. right. exists j. split; [congruence|exact J].
Qed.
Lemma put_nodup : forall {A B} (f : A -> B) (l : list A) i x, (i < List.length l)%nat -> NoDup (map f l) ->
  (NoDup (map f (put l i x)) <-> ~ exists j y, j <> i /\ nth_error l j = Some y /\ f y = f x).
Proof.
  intros A B f. induction l as [|z l IH]; intros i x L N; [cbn in L; lia|]. inversion N as [|q l0 NI ND]; subst. destruct i as [|i]; cbn [put map].
  - split.
    + intros H (j & y & J & Y & E). inversion H as [|q l0 NI' ND']; subst. apply NI'. rewrite <- E. destruct j as [|j]; [now elim J|]. apply in_map. now apply (nth_error_In l j).
    + intros H. constructor; [|exact ND]. intros I. apply in_map_iff in I as (y & E & I). apply In_nth_error in I as [j J]. apply H. now exists (S j), y.
  - cbn in L. assert (L' : (i < List.length l)%nat) by lia. specialize (IH i x L' ND). split.
    + intros H (j & y & J & Y & E). inversion H as [|q l0 NI' ND']; subst. destruct j as [|j].
      * injection Y as ->. apply NI'. rewrite E. apply in_map. apply put_in; [exact L'|now left].
      * apply (proj1 IH ND'). exists j, y. repeat split; trivial. congruence.
    + intros H. constructor.
      * intros I. apply in_map_iff in I as (y & E & I). apply put_in in I as [->|(j & J & Y)]; [| |exact L'].
        -- apply H. exists 0%nat, z. repeat split; [discriminate|congruence].
        -- apply NI. rewrite <- E. apply in_map. now apply (nth_error_In l j).
      * apply IH. intros (j & y & J & Y & E). apply H. exists (S j), y. repeat split; trivial. congruence.
Qed.
(* when SetKeyword breaks it: exactly when the new keyword is unknown or another rule of the list has it *)
Theorem C107_exact : forall p t b l x i kw, let s := run g_start p in show_list s t = Some (b, l) -> different_keywords l ->
  (i < List.length l)%nat -> nth_error (members s t) i = g_rv s x ->
  let r' := tr_step (nth i l None) (TKeyword kw) in
  exists l', show_list (step s (GCall x (TKeyword kw))) t = Some (b, l') /\
    (different_keywords l' <->
     (exists k, tr_keyword r' = targetkw_const k) /\ (forall j r, j <> i -> nth_error l j = Some r -> tr_keyword r <> tr_keyword r')).
Proof.
  intros p t b l x i kw s H [ND K] LT E r'. destruct (C107_follows p t b l x i (TKeyword kw) H ND LT E) as [A _]. cbv zeta in A. fold s in A. rewrite A. clear A. fold r'.
  assert (X : exists d, r' = Some d).
  { unfold r'. destruct (K (nth i l None)) as [k KK]; [now apply nth_In|]. destruct (nth i l None) as [c|]; [|destruct k; discriminate KK]. destruct kw; cbn; eauto. }
  destruct X as [d D]. rewrite D. rewrite <- D. clearbody r'. eexists. split; [reflexivity|]. unfold different_keywords. rewrite (put_nodup tr_keyword l i r' LT ND). split.
  - intros [N Q]. split; [apply Q, put_in; [exact LT|now left]|]. intros j r J R T. apply N. now exists j, r.
  - intros [Q N]. split.
    + intros (j & y & J & Y & T). exact (N j y J Y T).
    + intros r I. apply put_in in I as [->|(j & J & Y)]; [exact Q| |exact LT]. apply K. now apply (nth_error_In l j).
Qed.

(* ---- C108 ---- *)
Theorem C108_frame : forall p c i, let s := run g_start p in ~ concerns_ins s c i ->
  show_ins (step s c) i = show_ins s i /\ ins_text W (step s c) i = ins_text W s i.
Proof.
  intros p c i s N. assert (E : show_ins (step s c) i = show_ins s i) by (apply frame_ins; [apply wf_run, wf_start|exact N]).
  split; [exact E|]. unfold ins_text. now rewrite E.
Qed.
Fixpoint unconcerned (s : gst) (p : list gstmt) (i : nat) : Prop :=
  match p with [] => True | c :: p => ~ concerns_ins s c i /\ unconcerned (step s c) p i end.
Theorem C108_kept_partial : forall p q i, unconcerned (run g_start p) q i ->
  ins_text W (run g_start (p ++ q)%list) i = ins_text W (run g_start p) i.
Proof.
  intros p q. revert p. induction q as [|c q IH]; intros p i U; [now rewrite app_nil_r|].
  destruct U as [H U]. replace (p ++ c :: q)%list with ((p ++ [c]) ++ q)%list by now rewrite <- app_assoc.
  assert (E : run g_start (p ++ [c])%list = step (run g_start p) c) by now rewrite run_app.
  rewrite IH by now rewrite E. rewrite E. now apply C108_frame.
Qed.
Lemma set1_shows : forall s0 s n l k0 x c k,
  same_but s0 s n l -> nth_error (g_lists s0) l = Some k0 -> nth_error (g_ins s) n = Some c -> ic_trs c = l -> nth_error (g_lists s) l = Some k ->
  incl (t_mem k0) (t_mem k) ->
  exists c' k', nth_error (g_ins (set1 W s n x)) n = Some c' /\ ic_trs c' = l /\ nth_error (g_lists (set1 W s n x)) l = Some k' /\
    t_spaced k' = t_spaced k /\ incl (t_mem k0) (t_mem k') /\
    MkIns (ic_label c') (rvals s0 (t_mem k')) (ic_pbrs c') =
    assertInstruction W (MkIns (ic_label c) (rvals s0 (t_mem k)) (ic_pbrs c)) (set_value s0 x).
Proof.
  intros s0 s n l k0 x c k (R & RV & LV & IV & _ & LL) G0 C T G I. pose proof (nth_lt _ _ _ C) as NI. pose proof (nth_lt _ _ _ G) as NL.
  assert (RR : forall m, rvals s0 m = rvals s m) by (intros m; symmetry; now apply rvals_rules). unfold set1. rewrite C, T, G.
  assert (P : forall f z, (forall m, In m (t_mem k) -> In m (f (t_mem k))) -> rvals s (f (t_mem k)) = z ->
    let s' := with_list s l (MkT (t_spaced k) (f (t_mem k))) in
    exists c' k', nth_error (g_ins s') n = Some c' /\ ic_trs c' = l /\ nth_error (g_lists s') l = Some k' /\
    t_spaced k' = t_spaced k /\ incl (t_mem k0) (t_mem k') /\
    MkIns (ic_label c') (rvals s0 (t_mem k')) (ic_pbrs c') = MkIns (ic_label c) z (ic_pbrs c)).
  { intros f z H E s'. subst s'. exists c, (MkT (t_spaced k) (f (t_mem k))). cbn [with_list g_ins g_lists t_spaced t_mem]. rewrite nth_wr_same by exact NL.
    rewrite RR, E. repeat apply conj; trivial. intros m M. apply H, I, M. }
  assert (Q : forall d, ic_trs d = l -> let s' := with_ins s n d in
    exists c' k', nth_error (g_ins s') n = Some c' /\ ic_trs c' = l /\ nth_error (g_lists s') l = Some k' /\
    t_spaced k' = t_spaced k /\ incl (t_mem k0) (t_mem k') /\
    MkIns (ic_label c') (rvals s0 (t_mem k')) (ic_pbrs c') = MkIns (ic_label d) (rvals s0 (t_mem k)) (ic_pbrs d)).
  { intros d D s'. exists d, k. subst s'. cbn [with_ins g_ins g_lists]. rewrite nth_wr_same by exact NI. repeat apply conj; trivial. }
  destruct x as [a|t|x|r|pl|]; cbn zeta; cbn [set_value assertInstruction i_label i_trs i_pbrs].
  - destruct (Q (MkIC (i_label (setLabel (MkIns (ic_label c) [] []) a)) l (ic_pbrs c)) eq_refl) as (c' & k' & A & B & D & E & F & H).
    exists c', k'. repeat apply conj; trivial. rewrite H. cbn [ic_label ic_pbrs]. unfold setLabel. cbn [i_label i_trs i_pbrs]. now destruct (_ && _)%bool.
  - apply (P (fun m => fold_left (gtarget1 s) (members s t) m)).
    + intros m M. generalize (members s t). intros ms. revert M. generalize (t_mem k). induction ms as [|y ms IH]; intros z M; [exact M|]. cbn [fold_left]. apply IH.
      unfold gtarget1. destruct (negb _); [|exact M]. cbn [gpush1]. destruct (_ && _)%bool; [|exact M]. apply in_app_iff. now left.
    + rewrite gtarget_val. rewrite RR. unfold show_list, members. rewrite LV. destruct (g_lv s0 t) as [u|]; [|reflexivity].
      destruct (Nat.eq_dec u l) as [->|N].
      * rewrite G, G0. rewrite !targets_again; [reflexivity| |].
        -- intros r M. rewrite RR in M. apply in_map_iff in M as (m & <- & M). apply in_map. now apply I.
        -- auto.
      * rewrite (LL u N). destruct (nth_error (g_lists s0) u); [|reflexivity]. now rewrite RR.
  - apply (P (fun m => gpush1 s m (g_rv s x))).
    + intros m M. destruct (g_rv s x); [|exact M]. cbn [gpush1]. destruct (_ && _)%bool; [|exact M]. apply in_app_iff. now left.
    + rewrite RR. change (g_rv s x) with (garg_ref s (GRule x)). rewrite gpush_val. cbn [push_value]. do 2 f_equal.
      unfold show_rule, rval. now rewrite RV, R.
  - apply Q. reflexivity.
  - apply Q. reflexivity.
  - exists c, k. repeat apply conj; trivial.
Qed.
Lemma sets_show : forall s0 n l k0 xs s c k,
  same_but s0 s n l -> nth_error (g_lists s0) l = Some k0 -> nth_error (g_ins s) n = Some c -> ic_trs c = l -> nth_error (g_lists s) l = Some k ->
  incl (t_mem k0) (t_mem k) -> let s' := fold_left (fun s x => set1 W s n x) xs s in
  exists c' k', nth_error (g_ins s') n = Some c' /\ ic_trs c' = l /\ nth_error (g_lists s') l = Some k' /\ t_spaced k' = t_spaced k /\
    g_rules s' = g_rules s0 /\ g_iv s' = g_iv s0 /\ g_lv s' = g_lv s0 /\
    MkIns (ic_label c') (rvals s0 (t_mem k')) (ic_pbrs c') = instr_set W (MkIns (ic_label c) (rvals s0 (t_mem k)) (ic_pbrs c)) (map (set_value s0) xs).
Proof.
  intros s0 n l k0. induction xs as [|x xs IH]; intros s c k S G0 C T G I s'.
  - exists c, k. destruct S as (A & B & D & E & _). repeat apply conj; trivial.
  - destruct (set1_shows s0 s n l k0 x c k S G0 C T G I) as (c1 & k1 & C1 & T1 & G1 & S1 & I1 & E1).
    assert (S' : same_but s0 (set1 W s n x) n l).
    { pose proof (set1_same s n x c C) as Q. rewrite T in Q. destruct S as (A & B & D & E & F & H), Q as (A' & B' & D' & E' & F' & H').
      repeat apply conj; try congruence; intros m N; [rewrite F' by exact N|rewrite H' by exact N]; auto. }
    destruct (IH _ _ _ S' G0 C1 T1 G1 I1) as (c2 & k2 & A & B & D & E & F1 & F2 & F3 & H). exists c2, k2. unfold s'. cbn [fold_left]. repeat apply conj; trivial; [congruence|].
    cbn [map]. unfold instr_set in *. cbn [fold_left]. rewrite H, E1. reflexivity.
Qed.
(* Set changes the instruction as the values of its arguments at that moment say (C99 and
   others describe [ins_set]) and leaves the spacing; other instructions stay as they were *)
Theorem C108_set : forall p i xs, let s := run g_start p in let s' := step s (GSet i xs) in
  exists b a, show_ins s' i = Some (b, a) /\
    Some a = ins_set W (match show_ins s i with Some (_, a) => Some a | None => None end) (map (set_value s) xs) /\
    b = match show_ins s i with Some (b, _) => b | None => false end.
Proof.
  intros p i xs s s'. assert (Wf : wf s) by apply wf_run, wf_start. subst s'. clearbody s. cbn [g_step]. destruct (g_iv s i) as [n|] eqn:IV.
  - rewrite IV. destruct (own_some s i n Wf IV) as (c & G & O). pose proof Wf as (_ & _ & _ & _ & WE & _). pose proof (WE n c G) as L.
    destruct (nth_error (g_lists s) (ic_trs c)) as [k|] eqn:K; [|apply nth_error_None in K; lia].
    assert (SB : same_but s s n (ic_trs c)) by now repeat apply conj.
    destruct (sets_show s n (ic_trs c) k xs s c k SB K G eq_refl K (incl_refl _)) as (c' & k' & A & B & D & E & F1 & F2 & F3 & H). cbv zeta in *.
    set (s1 := fold_left _ xs s) in *. unfold show_ins at 1. rewrite F2, IV, A. unfold show_cell. rewrite B, D. rewrite (rvals_rules s s1) by exact F1. rewrite H.
    eexists _, _. split; [reflexivity|]. unfold show_ins. rewrite IV, G. unfold show_cell. rewrite K. split; [reflexivity|exact E].
  - destruct (new_ins_cell s i) as [G IV']. rewrite IV'. set (s0 := new_ins s i) in *. assert (W0 : wf s0) by now apply wf_new_ins.
    assert (K : nth_error (g_lists s0) (List.length (g_lists s)) = Some (MkT false [])) by apply nth_new.
    assert (SB : same_but s0 s0 (List.length (g_ins s)) (List.length (g_lists s))) by now repeat apply conj.
    destruct (sets_show s0 _ _ _ xs s0 _ _ SB K G eq_refl K (incl_refl _)) as (c' & k' & A & B & D & E & F1 & F2 & F3 & H). cbv zeta in *.
    set (s1 := fold_left _ xs s0) in *. unfold show_ins at 1. rewrite F2, IV', A. unfold show_cell. rewrite B, D. rewrite (rvals_rules s0 s1) by exact F1. rewrite H.
    eexists _, _. split; [reflexivity|]. unfold show_ins. rewrite IV. cbn [ic_label ic_pbrs t_mem t_spaced rvals map] in *. split; [|exact E].
    unfold ins_set, instr_new. f_equal. f_equal. apply map_ext. intros x. destruct x as [a|t|x|r|pl|]; try reflexivity. cbn [set_value]. f_equal.
    assert (X : show_list s0 t = show_list s t); [|now rewrite X]. apply show_list_frame; [exact Wf|reflexivity|]. intros l L.
    apply keeps_refl; [reflexivity|]. cbn. apply nth_old. destruct Wf as (_ & WB & _). eauto.
Qed.
Lemma own_shows : forall s i b a, wf s -> show_ins s i = Some (b, a) -> exists n c k, g_iv s i = Some n /\ nth_error (g_ins s) n = Some c /\
  nth_error (g_lists s) (ic_trs c) = Some k /\ b = t_spaced k /\ a = MkIns (ic_label c) (rvals s (t_mem k)) (ic_pbrs c).
Proof.
  intros s i b a Wf H. unfold show_ins in H. destruct (g_iv s i) as [n|]; [|discriminate]. destruct (nth_error (g_ins s) n) as [c|] eqn:G; [|discriminate].
  unfold show_cell in H. destruct (nth_error (g_lists s) (ic_trs c)) as [k|] eqn:K; [|discriminate]. injection H as <- <-. exists n, c, k. now repeat apply conj.
Qed.
(* the list TRs() gives is the instruction's own: Push to it, Pop from it and NoPadding on it
   change the instruction *)
Theorem C108_own_list : forall p t i b a c, let s := step (run g_start p) (GTRsOf t i) in show_ins (run g_start p) i = Some (b, a) ->
  match c with GPush u _ | GPop _ u | GNoPad u _ => u = t | _ => False end ->
  show_ins s i = Some (b, a) /\ show_list s t = Some (b, i_trs a) /\
  exists b' l', show_list (step s c) t = Some (b', l') /\ show_ins (step s c) i = Some (b', MkIns (i_label a) l' (i_pbrs a)).
Proof.
  intros p t i b a c s H C. assert (Wf : wf (run g_start p)) by apply wf_run, wf_start. revert s. generalize dependent (run g_start p). intros s0 H Wf s.
  destruct (own_shows s0 i b a Wf H) as (n & d & k & IV & G & K & -> & ->). subst s. set (s := step s0 (GTRsOf t i)).
  assert (LV : g_lv s t = Some (ic_trs d)) by (unfold s; cbn; now rewrite upd_same, IV, G).
  assert (RV : forall l, rvals s l = rvals s0 l) by (intros l; now apply rvals_rules).
  change (g_iv s0 i) with (g_iv s i) in IV. change (g_ins s0) with (g_ins s) in G. change (g_lists s0) with (g_lists s) in K.
  cbn [i_trs i_label i_pbrs]. repeat apply conj.
  - unfold show_ins. rewrite IV, G. unfold show_cell. rewrite K, RV. reflexivity.
  - unfold show_list. rewrite LV, K, RV. reflexivity.
  - assert (X : forall f, let s' := on_list s t f in show_list s' t = Some (t_spaced (f k), rvals s (t_mem (f k))) /\
      show_ins s' i = Some (t_spaced (f k), MkIns (ic_label d) (rvals s (t_mem (f k))) (ic_pbrs d))).
    { intros f s'. subst s'. unfold on_list. rewrite LV, K. unfold show_list, show_ins. cbn [with_list g_lv g_iv g_lists g_ins]. rewrite LV, IV, G. unfold show_cell. cbn [with_list g_lists].
      rewrite nth_wr_same by (now apply nth_lt in K). split; reflexivity. }
    clearbody s. destruct c as [x r|x y|x m|u|u v|u xs|x u|x u j|u bb|j|j q|j xs|u j]; try contradiction; subst u; cbn [g_step].
    + destruct (X (fun k => MkT (t_spaced k) (push_many (w_stop W) (gpush1 s) (t_mem k) (map (garg_ref s) xs)))) as [A B]. eexists _, _. split; [exact A|exact B].
    + destruct (X (fun k => MkT (t_spaced k) (pop (t_mem k)))) as [A B]. eexists _, _. split; [exact A|exact B].
    + destruct (X (fun k => MkT (negb match bb with Some b => b | None => negb (t_spaced k) end) (t_mem k))) as [A B]. eexists _, _. split; [exact A|exact B].
Qed.
(* giving an instruction its own list changes nothing *)
Theorem C108_own : forall p t i, let s := run g_start p in g_lv s t <> None -> g_lv s t = own_list s i ->
  show_ins (step s (GSet i [GTRs t])) i = show_ins s i.
Proof.
  intros p t i s N O. assert (Wf : wf s) by apply wf_run, wf_start. destruct (C108_set p i [GTRs t]) as (b & a & A & B & C). fold s in A, B, C. clearbody s. rewrite A. clear A.
  unfold own_list in O. unfold show_ins in *. destruct (g_iv s i) as [n|] eqn:IV; [|now rewrite O in N]. destruct (nth_error (g_ins s) n) as [c|] eqn:G; [|now rewrite O in N].
  unfold show_cell in *. destruct Wf as (_ & _ & _ & _ & WE & _). pose proof (WE n c G). destruct (nth_error (g_lists s) (ic_trs c)) as [k|] eqn:K; [|apply nth_error_None in K; lia].
  subst b. unfold ins_set, instr_set in B. injection B as ->. cbn [map set_value fold_left assertInstruction i_label i_trs i_pbrs]. unfold show_list. rewrite O, K.
  rewrite targets_again by auto. reflexivity.
Qed.
(* ---- C109 ---- *)
Theorem C109_text : forall p t b l, show_list (run g_start p) t = Some (b, l) ->
  list_text W (run g_start p) t = join (if b then " " else "") (map tr_string l).
Proof. intros p t b l H. unfold list_text. now rewrite H. Qed.
Theorem C109_new : forall p t, show_list (step (run g_start p) (GList t)) t = Some (false, []).
Proof. intros p t. unfold show_list. cbn. now rewrite upd_same, nth_new. Qed.
Theorem C109_set : forall p t b l state, let s := run g_start p in show_list s t = Some (b, l) ->
  show_list (step s (GNoPad t state)) t = Some (match state with Some q => negb q | None => b end, l).
Proof.
  intros p t b l state s H. assert (Wf : wf s) by apply wf_run, wf_start. clearbody s. cbn [g_step].
  match goal with |- show_list (on_list s t ?f) t = _ => destruct (on_list_shows s t f b l Wf H) as (u & k & _ & _ & <- & <- & ->) end.
  cbn [t_spaced t_mem]. destruct state; [reflexivity|]. now rewrite negb_involutive.
Qed.
(* nothing but NoPadding with an argument, on this list, changes the spacing *)
Theorem C109_stays : forall p t c b l, let s := run g_start p in show_list s t = Some (b, l) ->
  match c with
  | GList u | GLCopy u _ | GTRsOf u _ => u <> t
  | GNoPad u (Some _) => g_lv s u <> g_lv s t
  | _ => True
  end -> exists l', show_list (step s c) t = Some (b, l').
Proof.
  intros p t c b l s H N. pose proof (frame_list s c t (wf_run p _ wf_start)) as F. assert (Wf : wf s) by apply wf_run, wf_start.
  assert (ON : forall u f, (forall k, t_spaced (f k) = t_spaced k) -> exists l', show_list (on_list s u f) t = Some (b, l')).
  { intros u f E. unfold show_list, on_list in *. destruct (g_lv s t) as [v|] eqn:V; [|discriminate]. destruct (nth_error (g_lists s) v) as [k|] eqn:G; [|discriminate]. injection H as <- <-.
    destruct (g_lv s u) as [w|]; [|rewrite V, G; eauto]. destruct (nth_error (g_lists s) w) as [k'|] eqn:G'; [|rewrite V, G; eauto]. cbn [with_list g_lv g_lists]. rewrite V.
    destruct (Nat.eq_dec v w) as [->|D]; [|rewrite nth_wr_other, G by exact D; eauto]. rewrite nth_wr_same by (now apply nth_lt in G). rewrite G in G'. injection G' as <-. rewrite E. eauto. }
  assert (CC : concerns_list s c t -> exists l', show_list (step s c) t = Some (b, l')).
  { clear F. destruct c as [x r|x y|x m|u|u v|u xs|x u|x u j|u [q|]|j|j q|j xs|u j]; cbn [g_step concerns_list] in *; try contradiction; intros C; try (now elim N).
    - unfold show_list in *. destruct (call_vars s x m) as (-> & _ & _). destruct (g_lv s t) as [v|] eqn:V; [|discriminate].
      assert (L : g_lists (rule_call s x m) = g_lists s) by (unfold rule_call; destruct (g_rv s x); [destruct (tr_step (rval s n) m)|destruct (tr_step None m)]; reflexivity).
      rewrite L. destruct (nth_error (g_lists s) v); [|discriminate]. injection H as <- _. eauto.
    - now apply ON.
    - destruct (ON u (fun k => MkT (t_spaced k) (pop (t_mem k)))) as [l' E]; [reflexivity|]. unfold show_list in E |- *. cbn [with_rv g_lv g_lists].
      match goal with |- context [match ?x with _ => _ end] => destruct x; [|discriminate] end. match goal with |- context [match ?x with _ => _ end] => destruct x; [|discriminate] end. injection E as <- _. eauto.
    - apply ON. intros k. cbn. apply negb_involutive.
    - destruct C as [C1 C2]. unfold own_list in C1, C2. destruct (g_iv s j) as [n|] eqn:IV; [|now elim C1]. destruct (nth_error (g_ins s) n) as [d|] eqn:G; [|now elim C1]. rewrite IV.
      unfold show_list in H. rewrite <- C2 in H. destruct (nth_error (g_lists s) (ic_trs d)) as [k|] eqn:K; [|discriminate]. injection H as <- _.
      assert (SB : same_but s s n (ic_trs d)) by now repeat apply conj.
      destruct (sets_show s n (ic_trs d) k xs s d k SB K G eq_refl K (incl_refl _)) as (c' & k' & A & B & D & E & _ & _ & F3 & _). cbv zeta in *.
      unfold show_list. rewrite F3, <- C2, D, E. eauto. }
  assert (DEC : concerns_list s c t \/ ~ concerns_list s c t).
  { destruct c as [x r|x y|x m|u|u v|u xs|x u|x u j|u q|j|j q|j xs|u j]; cbn [concerns_list]; auto;
      try (destruct (Nat.eq_dec u t); auto; fail);
      try (match goal with |- (?a <> None /\ ?a = ?b) \/ _ => destruct a as [e|]; [|right; intros [Z _]; now elim Z]; destruct b as [f|]; [|right; intros [_ Z]; discriminate];
           destruct (Nat.eq_dec e f) as [->|Q]; [left; split; [discriminate|reflexivity]|right; intros [_ Z]; congruence] end).
    destruct (g_lv s t) as [l0|]; [|right; intros (z & Z & _); discriminate]. destruct (g_rv s x) as [n|] eqn:R; [|right; intros (z & _ & (y & Y & _)); congruence].
    destruct (in_dec Nat.eq_dec n (mem_of s l0)) as [I|I]; [left; exists l0; split; [reflexivity|now exists n]|].
    right. intros (z & Z & (y & Y & M)). injection Z as <-. rewrite R in Y. injection Y as <-. contradiction. }
  destruct DEC as [D|D]; [exact (CC D)|]. rewrite (F D). eauto.
Qed.
End Prog.

(* ---- false claims and examples ---- *)
From Verif Require Import TAci.
Notation R0 := (g_run W0 g_start).
Definition scope_rule : rule := TR true (KTarget TargetScope) (OCop Eq) (Some (XText "subtree")).
Definition filter_rule : rule := TR true (KTarget TargetFilter) (OCop Eq) (Some (XText "(cn=a)")).
Definition scope_text : string := "( targetscope = " ++ quote "subtree" ++ " )".
Definition filter_text : string := "( targetfilter = " ++ quote "(cn=a)" ++ " )".
Definition two_rules : list gstmt := [GNew 0 scope_rule; GNew 1 filter_rule; GList 0; GPush 0 [GRule 0; GRule 1]].
(* SetKeyword through the variable that was pushed, or through what Index gives *)
Theorem C107_refuted :
  ~ (forall p t b l, show_list (R0 p) t = Some (b, l) -> different_keywords l) /\
  list_text W0 (R0 (two_rules ++ [GCall 1 (TKeyword (KStr "targetscope"))])%list) 0
    = scope_text ++ "( targetscope = " ++ quote "(cn=a)" ++ " )" /\
  list_text W0 (R0 (two_rules ++ [GIndex 5 0 0; GCall 5 (TKeyword (KTarget TargetFilter))])%list) 0
    = "( targetfilter = " ++ quote "subtree" ++ " )" ++ filter_text.
Proof.
  split; [|split; vm_compute; reflexivity]. intros H. set (p := (two_rules ++ [GCall 1 (TKeyword (KStr "targetscope"))])%list).
  destruct (show_list (R0 p) 0) as [[b l]|] eqn:E; [|vm_compute in E; discriminate E]. destruct (H p 0%nat b l E) as [N _].
  assert (K : map tr_keyword l = [TargetScope; TargetScope]).
  { assert (X : match show_list (R0 p) 0 with Some (_, l) => map tr_keyword l | None => [] end = [TargetScope; TargetScope]) by (vm_compute; reflexivity). now rewrite E in X. }
  rewrite K in N. inversion N as [|x y NI _]; subst. apply NI. now left.
Qed.
(* a rule changed after it was given to Set; the list from TRs() *)
Theorem C108_refuted :
  let p := [GNew 0 scope_rule; GSet 0 [GStr "a"; GTR 0]] in
  let rest := "(version 3.0; acl " ++ quote "a" ++ "; )" in
  ~ (forall p i x m, ins_text W0 (R0 (p ++ [GCall x m])%list) i = ins_text W0 (R0 p) i) /\
  ~ (forall p i t xs, ins_text W0 (R0 (p ++ [GPush t xs])%list) i = ins_text W0 (R0 p) i) /\
  ins_text W0 (R0 p) 0 = scope_text ++ rest /\
  ins_text W0 (R0 (p ++ [GCall 0 (TExpression (Some (XText "base")))])%list) 0 = "( targetscope = " ++ quote "base" ++ " )" ++ rest /\
  ins_text W0 (R0 (p ++ [GTRsOf 0 0; GNew 1 filter_rule; GPush 0 [GRule 1]; GNoPad 0 (Some false)])%list) 0 = scope_text ++ " " ++ filter_text ++ rest.
Proof.
  cbv zeta. split; [|split; [|repeat apply conj; vm_compute; reflexivity]]; intros H.
  - specialize (H [GNew 0 scope_rule; GSet 0 [GTR 0]] 0%nat 0%nat (TNoPadding true)). vm_compute in H. discriminate H.
  - specialize (H [GNew 0 scope_rule; GSet 0 []; GTRsOf 0 0] 0%nat 0%nat [GRule 0]). vm_compute in H. discriminate H.
Qed.
Print Assumptions C107_frame.
Print Assumptions C107_push.
Print Assumptions C107_pop.
Print Assumptions C107_partial.
Print Assumptions C107_nine.
Print Assumptions C107_follows.
Print Assumptions C107_exact.
Print Assumptions C107_refuted.
Print Assumptions C108_frame.
Print Assumptions C108_kept_partial.
Print Assumptions C108_set.
Print Assumptions C108_own_list.
Print Assumptions C108_own.
Print Assumptions C108_refuted.
Print Assumptions C109_text.
Print Assumptions C109_new.
Print Assumptions C109_set.
Print Assumptions C109_stays.
Example C107_witness :
  calm_run W0 g_start ([GNew 0 scope_rule; GCall 0 (TKeyword (KTarget TargetFilter)); GNew 1 filter_rule] ++ [GList 0; GPush 0 [GRule 0; GRule 1]; GCall 0 (TNoPadding true)])%list /\
  list_text W0 (R0 ([GNew 0 scope_rule; GCall 0 (TKeyword (KTarget TargetFilter)); GNew 1 filter_rule] ++ [GList 0; GPush 0 [GRule 0; GRule 1]; GCall 0 (TNoPadding true)])%list) 0
    = "(targetfilter=" ++ quote "subtree" ++ ")" /\
  (let s := R0 two_rules in list_text W0 s 0 = scope_text ++ filter_text /\ nth_error (members s 0) 1 = g_rv s 1 /\
   ~ concerns_list s (GNoPad 1 (Some false)) 0 /\ list_text W0 (g_step W0 s (GPop 3 0)) 0 = scope_text).
Proof.
  split; [|split; [vm_compute; reflexivity|split; [vm_compute; reflexivity|split; [vm_compute; reflexivity|split; [|vm_compute; reflexivity]]]]].
  - cbn [calm_run calm app]. repeat split. intros l (n & _ & I). vm_compute in I. destruct l; destruct I.
  - intros [N _]. now elim N.
Qed.
(* the list given to Set is not the instruction's: it can change afterwards *)
Example C108_witness :
  let p := (two_rules ++ [GSet 0 [GStr "a"; GTRs 0; GStr "b"]])%list in
  let q := [GPop 2 0; GNoPad 0 (Some false); GList 1; GSet 1 [GStr "c"; GTR 1]] in
  unconcerned W0 (R0 p) q 0 /\ 
  ins_text W0 (R0 (p ++ q)%list) 0 = scope_text ++ filter_text ++ "(version 3.0; acl " ++ quote "a" ++ "; )" /\
  ins_text W0 (R0 (p ++ q)%list) 1 = filter_text ++ "(version 3.0; acl " ++ quote "c" ++ "; )" /\
  g_lv (R0 (p ++ [GTRsOf 3 0])%list) 3 = own_list (R0 (p ++ [GTRsOf 3 0])%list) 0.
Proof.
  cbv zeta. split; [|repeat apply conj; vm_compute; reflexivity]. cbn [unconcerned].
  repeat split; intros H; vm_compute in H; repeat match goal with H : _ /\ _ |- _ => destruct H | H : _ \/ _ |- _ => destruct H end;
  first [discriminate|contradiction|match goal with H : ?a = ?a -> False |- _ => exact (H eq_refl) end].
Qed.
Example C109_witness :
  list_text W0 (R0 (two_rules ++ [GNoPad 0 (Some false); GPush 0 [GAny]; GNoPad 0 None])%list) 0 = scope_text ++ " " ++ filter_text.
Proof. vm_compute. reflexivity. Qed.
