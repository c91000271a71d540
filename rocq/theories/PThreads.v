(* Lemma for C140-C142: a machine whose steps respect the names of the objects. *)
From Coq Require Import List PeanoNat Bool.
From Verif Require Import MHeap MShare MFShare SShare SThreads.
Import ListNotations.

Section Machine.
Context {St Stmt Var Ob : Type}.
Variable step : St -> Stmt -> St.
Variable vars : Stmt -> list Var.
Variable changes : St -> Stmt -> Ob -> Prop.
Variable leads : St -> Var -> Ob -> Prop.
Variable live : St -> Ob -> Prop.
(* [sim V R s t]: the variables V show the same in s and t, up to the names R of the objects *)
Variable sim : (Var -> Prop) -> (Ob -> Ob -> Prop) -> St -> St -> Prop.
Hypothesis sim_step : forall V R s t c, sim V R s t -> (forall x, In x (vars c) -> V x) ->
  exists R', sim V R' (step s c) (step t c) /\ forall n m, R' n m -> R n m \/ ~ live t m.
Hypothesis sim_frame : forall V R s t c, sim V R s t -> (forall x, In x (vars c) -> ~ V x) ->
  (forall n m, R n m -> ~ changes t c m) -> sim V R s (step t c).
Hypothesis sim_changes : forall V R s t c m, sim V R s t -> (forall x, In x (vars c) -> V x) -> changes t c m -> exists n, R n m /\ changes s c n.
Hypothesis sim_live : forall V R s t n m, sim V R s t -> R n m -> live t m.
Hypothesis live_step : forall t c m, live t m -> live (step t c) m.

Variables (owner : Var -> nat) (com : Ob -> Prop) (s0 : St).
Hypothesis com_live : forall m, com m -> live s0 m.
Definition mine (i : nat) (x : Var) : Prop := owner x = i.
Definition together (al : nat -> St) (re : nat -> Ob -> Ob -> Prop) (t : St) : Prop :=
  (forall i, sim (mine i) (re i) (al i) t) /\ (forall i j n n' m, re i n m -> re j n' m -> i = j \/ com m) /\
  (forall i n m, re i n m -> com m -> n = m) /\ (forall m, com m -> live t m).
Lemma together_step al re t i c : together al re t -> (forall x, In x (vars c) -> owner x = i) -> (forall m, changes (al i) c m -> ~ com m) ->
  exists re', together (fun j => if (j =? i)%nat then step (al i) c else al j) re' (step t c).
Proof.
  intros (Si & D & Eq & Le) I Sp. destruct (sim_step _ _ _ _ c (Si i) I) as (R & S & Nw).
  exists (fun j => if (j =? i)%nat then R else re j). split; [|split; [|split]].
  - intros j. destruct (Nat.eqb_spec j i) as [->|Nj]; [exact S|]. apply sim_frame; [apply Si| |].
    + intros x X Y. apply I in X. unfold mine in Y. congruence.
    + intros n m E C. destruct (sim_changes _ _ _ _ _ _ (Si i) I C) as (n' & E' & C'). destruct (D _ _ _ _ _ E E') as [X|X]; [now apply Nj|].
      apply (Sp n' C'). now rewrite (Eq _ _ _ E' X).
  - intros a b n n' m A B.
    assert (Lt : forall j k, re j k m -> live t m) by (intros j k E; eapply sim_live; [apply (Si j)|exact E]).
    destruct (Nat.eqb_spec a i) as [->|Na], (Nat.eqb_spec b i) as [->|Nb]; [now left| | |eapply D; eauto].
    + destruct (Nw _ _ A) as [A'|A']; [eapply D; eauto|]. destruct (A' (Lt _ _ B)).
    + destruct (Nw _ _ B) as [B'|B']; [eapply D; eauto|]. destruct (B' (Lt _ _ A)).
  - intros a n m A C. destruct (Nat.eqb_spec a i) as [->|Na]; [|eapply Eq; eauto]. destruct (Nw _ _ A) as [A'|A']; [eapply Eq; eauto|]. destruct (A' (Le m C)).
  - intros m C. apply live_step. auto.
Qed.
Lemma program_head i j c (q : @schedule Stmt) : program_of i ((j, c) :: q) = if (j =? i)%nat then c :: program_of i q else program_of i q.
Proof. unfold program_of. cbn [filter fst]. now destruct (j =? i)%nat. Qed.
Lemma threads : forall q al re t, together al re t -> own_variables vars owner q -> (forall i, spares step changes (al i) (program_of i q) com) ->
  forall i, exists R, sim (mine i) R (runs step (al i) (program_of i q)) (runs step t (map snd q)).
Proof.
  induction q as [|[j c] q IH]; intros al re t T I Sp i.
  - exists (re i). apply T.
  - cbn [map snd]. unfold runs at 2. cbn [fold_left]. fold (runs step (step t c) (map snd q)).
    assert (Ic : forall x, In x (vars c) -> owner x = j) by (apply I; now left). assert (Iq : own_variables vars owner q) by (intros k d K; apply I; now right).
    pose proof (Sp j) as Spj. rewrite program_head, Nat.eqb_refl in Spj. cbn [spares] in Spj. destruct Spj as [Sp1 Sp2].
    destruct (together_step al re t j c T Ic Sp1) as [re' T'].
    assert (Sq : forall k, spares step changes (if (k =? j)%nat then step (al j) c else al k) (program_of k q) com).
    { intros k. pose proof (Sp k) as X. rewrite program_head, (Nat.eqb_sym j k) in X. destruct (k =? j)%nat eqn:J; [|exact X]. apply Nat.eqb_eq in J. subst k. exact Sp2. }
    destruct (IH _ re' _ T' Iq Sq i) as [R H]. exists R. rewrite program_head, (Nat.eqb_sym j i). destruct (i =? j)%nat eqn:J; [|exact H].
    apply Nat.eqb_eq in J. subst j. exact H.
Qed.
End Machine.

Section Start.
Context {St Stmt Var Ob : Type}.
Variable step : St -> Stmt -> St.
Variable vars : Stmt -> list Var.
Variable changes : St -> Stmt -> Ob -> Prop.
Variable leads : St -> Var -> Ob -> Prop.
Variable live : St -> Ob -> Prop.
Variable sim : (Var -> Prop) -> (Ob -> Ob -> Prop) -> St -> St -> Prop.
Variable wf : St -> Prop.
Hypothesis sim_step : forall V R s t c, sim V R s t -> (forall x, In x (vars c) -> V x) ->
  exists R', sim V R' (step s c) (step t c) /\ forall n m, R' n m -> R n m \/ ~ live t m.
Hypothesis sim_frame : forall V R s t c, sim V R s t -> (forall x, In x (vars c) -> ~ V x) ->
  (forall n m, R n m -> ~ changes t c m) -> sim V R s (step t c).
Hypothesis sim_changes : forall V R s t c m, sim V R s t -> (forall x, In x (vars c) -> V x) -> changes t c m -> exists n, R n m /\ changes s c n.
Hypothesis sim_live : forall V R s t n m, sim V R s t -> R n m -> live t m.
Hypothesis live_step : forall t c m, live t m -> live (step t c) m.
Hypothesis wf_sim : forall (V : Var -> Prop) s, wf s -> sim V (fun n m => n = m /\ exists x, V x /\ leads s x n) s s.
Lemma threads_start owner s q : wf s -> own_variables vars owner q -> (forall i, spares step changes s (program_of i q) (common leads owner s)) ->
  forall i, exists R, sim (fun x => owner x = i) R (runs step s (program_of i q)) (runs step s (map snd q)).
Proof.
  intros Wf I Sp. apply (threads step vars changes live sim sim_step sim_frame sim_changes sim_live live_step owner (common leads owner s) q (fun _ => s)
    (fun i n m => n = m /\ exists x, owner x = i /\ leads s x n) s); [|exact I|exact Sp]. split; [|split; [|split]].
  - intros i. now apply wf_sim.
  - intros i j n n' m (-> & x & X & L) (-> & y & Y & L'). destruct (Nat.eq_dec i j) as [E|E]; [now left|right]. exists x, y. split; [congruence|auto].
  - now intros i n m [E _].
  - intros m (x & y & _ & L & _). eapply sim_live; [now apply (wf_sim (fun _ => True) s)|]. split; [reflexivity|]. now exists x.
Qed.
End Start.

(* ---- two lists of cells that agree up to the names of the cells ---- *)
From Coq Require Import Lia.
Lemma wr_len {A} (h : list A) : forall l c, List.length (wr h l c) = List.length h.
Proof. induction h as [|x t IH]; intros [|l] c; cbn; auto. Qed.
Lemma wr_same {A} (h : list A) : forall l c, (l < List.length h)%nat -> nth_error (wr h l c) l = Some c.
Proof. induction h as [|x t IH]; intros [|l] c H; cbn in *; try lia; auto. apply IH. lia. Qed.
Lemma wr_other {A} (h : list A) : forall l m c, m <> l -> nth_error (wr h l c) m = nth_error h m.
Proof. induction h as [|x t IH]; intros [|l] [|m] c H; cbn; try congruence; auto. Qed.
Lemma nth_lt {A} (h : list A) n d : nth_error h n = Some d -> (n < List.length h)%nat.
Proof. intros E. apply nth_error_Some. congruence. Qed.
Lemma nth_old {A} (h e : list A) n d : nth_error h n = Some d -> nth_error (h ++ e)%list n = Some d.
Proof. intros E. rewrite nth_error_app1; [exact E|]. now apply nth_lt in E. Qed.
Lemma nth_new {A} (h : list A) d : nth_error (h ++ [d])%list (List.length h) = Some d.
Proof. rewrite nth_error_app2, Nat.sub_diag; [reflexivity|lia]. Qed.
Lemma upd_same {V} (e : nat -> V) x v : upd e x v x = v. Proof. unfold upd. now rewrite Nat.eqb_refl. Qed.
Lemma upd_other {V} (e : nat -> V) x v y : y <> x -> upd e x v y = e y. Proof. unfold upd. intros N. now destruct (Nat.eqb_spec y x). Qed.

Definition rel := nat -> nat -> Prop.
Definition radd (R : rel) (a b : nat) : rel := fun n m => R n m \/ n = a /\ m = b.
Inductive orel (R : rel) : option nat -> option nat -> Prop :=
| O_none : orel R None None
| O_some n m : R n m -> orel R (Some n) (Some m).
Definition hrel {A} (R : rel) (E : A -> A -> Prop) (h t : list A) : Prop :=
  (forall n m, R n m -> exists d e, nth_error h n = Some d /\ nth_error t m = Some e /\ E d e) /\
  (forall n m n' m', R n m -> R n' m' -> (n = n' <-> m = m')).
Section Cells.
Context {A : Type}.
Implicit Types (R : rel) (E : A -> A -> Prop) (h t : list A).
Lemma hrel_lt R E h t n m : hrel R E h t -> R n m -> (n < List.length h)%nat /\ (m < List.length t)%nat.
Proof. intros [H _] X. destruct (H n m X) as (d & e & D & F & _). split; eapply nth_lt; eauto. Qed.
Lemma hrel_mono R E E' h t : hrel R E h t -> (forall d e, E d e -> E' d e) -> hrel R E' h t.
Proof. intros [H B] M. split; [|exact B]. intros n m X. destruct (H n m X) as (d & e & D & F & G). eauto 6. Qed.
Lemma hrel_snoc R E E' h t d e : hrel R E h t -> (forall d e, E d e -> E' d e) -> E' d e -> hrel (radd R (List.length h) (List.length t)) E' (h ++ [d])%list (t ++ [e])%list.
Proof.
  intros H M X. split.
  - intros n m [K|[-> ->]].
    + destruct (proj1 H n m K) as (a & b & D & F & G). exists a, b. split; [now apply nth_old|]. split; [now apply nth_old|auto].
    + exists d, e. split; [apply nth_new|]. split; [apply nth_new|exact X].
  - intros n m n' m' [K|[-> ->]] [K'|[-> ->]].
    + now apply (proj2 H).
    + apply (hrel_lt _ _ _ _ _ _ H) in K. lia.
    + apply (hrel_lt _ _ _ _ _ _ H) in K'. lia.
    + tauto.
Qed.
Lemma hrel_wr R E h t n m d e : hrel R E h t -> R n m -> E d e -> hrel R E (wr h n d) (wr t m e).
Proof.
  intros H K X. split; [|apply H]. intros a b J. pose proof (hrel_lt _ _ _ _ _ _ H K) as [L1 L2]. pose proof (proj2 H _ _ _ _ J K) as B.
  destruct (Nat.eq_dec a n) as [->|N].
  - replace b with m in * by (symmetry; now apply B). exists d, e. now rewrite !wr_same by assumption.
  - rewrite !wr_other; [now apply H| |exact N]. intros ->. apply N, B. reflexivity.
Qed.
Lemma hrel_frame_snoc R E h t e : hrel R E h t -> hrel R E h (t ++ [e])%list.
Proof. intros [H B]. split; [|exact B]. intros n m K. destruct (H n m K) as (a & b & D & F & G). exists a, b. split; [exact D|]. split; [now apply nth_old|exact G]. Qed.
Lemma hrel_frame_wr R E h t m e : hrel R E h t -> (forall n, ~ R n m) -> hrel R E h (wr t m e).
Proof. intros [H B] X. split; [|exact B]. intros a b K. rewrite wr_other; [now apply H|]. intros ->. now apply (X a). Qed.
End Cells.
Lemma radd_old (R : rel) a b n m : R n m -> radd R a b n m. Proof. now left. Qed.
Lemma radd_new (R : rel) a b : radd R a b a b. Proof. now right. Qed.
Lemma orel_mono (R R' : rel) p q : orel R p q -> (forall n m, R n m -> R' n m) -> orel R' p q.
Proof. intros [] M; constructor; auto. Qed.
Lemma hrel_frame {A} (R : rel) (E : A -> A -> Prop) h t t' : hrel R E h t -> (forall n m, R n m -> nth_error t' m = nth_error t m) -> hrel R E h t'.
Proof. intros [H B] F. split; [|exact B]. intros n m K. rewrite (F n m K). auto. Qed.
