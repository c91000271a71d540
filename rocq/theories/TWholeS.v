(* C138: under every schedule, goroutines that work on objects of their own get the
   results they would get alone. *)
From Coq Require Import String Ascii List PeanoNat NArith ZArith Bool Lia.
From Verif Require Import GoStr Shifty MMisc MKw MRights MLists MRule MConv MTree MHeap MAci TTree TAci MWhole SWhole PWhole TWhole SWholeS PWholeS.
Import ListNotations.

Lemma assigned_vars c : incl (assigned c) (vars c).
Proof. intros x. destruct c; cbn [assigned vars]; try (destruct k); try (destruct m); cbn [In]; tauto. Qed.
Lemma receiver_vars c x : receiver c = Some x -> In x (vars c).
Proof. destruct c; cbn [receiver vars]; intros [= ->]; cbn [In]; auto. Qed.
Lemma touched_sim V R s t c m : ssim V R s t -> (forall x, In x (vars c) -> V x) -> In m (touched t c) -> exists n, R n m /\ In n (touched s c).
Proof.
  intros [S H] I T. unfold touched in *. destruct (receiver c) as [x|] eqn:Rc; [|destruct T]. apply receiver_vars in Rc. destruct (H x (I x Rc)) as [|n k E]; [destruct T|].
  destruct (proj1 S n k E) as (d & e & D1 & D2 & N). rewrite D2 in T. rewrite D1. destruct N; cbn [In] in T |- *; repeat (destruct T as [<-|T]; [eauto 6|]); destruct T.
Qed.

Section Threads.
Variables (W : world) (owner : nat -> nat) (com : nat -> Prop) (N : nat).
Hypothesis com_old : forall m, com m -> (m < N)%nat.
Definition mine (i x : nat) : Prop := owner x = i.
(* [al i]: the state goroutine i alone would be in; [re i]: its objects there and in the
   joint state; [com]: objects of the first state that several goroutines may use *)
Definition together (al : nat -> st) (re : nat -> rel) (t : st) : Prop :=
  wf t /\ (forall i, ssim (mine i) (re i) (al i) t) /\ (forall i j n n' m, re i n m -> re j n' m -> i = j \/ com m) /\
  (forall i n m, re i n m -> com m -> n = m) /\ (N <= List.length (s_heap t))%nat.
Lemma together_step al re t i c s' t' : together al re t -> (forall x, In x (vars c) -> owner x = i) -> (forall m, In m (touched (al i) c) -> ~ com m) ->
  step W t c = Some t' -> sok (mine i) (re i) (al i) t s' t' -> exists re', together (fun j => if (j =? i)%nat then s' else al j) re' t'.
Proof.
  intros (Wf & Si & D & Eq & Le) I Sp H (R & O & VR). destruct (step_keeps W t c t' Wf H) as (Wf' & L & F & Vk). exists (fun j => if (j =? i)%nat then R else re j). split; [exact Wf'|]. split; [|split; [|split]].
  - intros j. destruct (Nat.eqb_spec j i) as [->|Nj]; [split; [exact (ok_sim _ _ _ _ _ _ O)|exact VR]|]. destruct (Si j) as [Sj Vj]. split.
    + split; [|apply Sj]. intros n m E. destruct (proj1 Sj n m E) as (d & e & A & B & X). exists d, e. split; [exact A|]. split; [|exact X]. rewrite F; [exact B|now apply nth_lt in B|].
      intros T. destruct (touched_sim (mine i) (re i) (al i) t c m (Si i) I T) as (n' & E' & T'). destruct (D _ _ _ _ _ E E') as [X'|X']; [now apply Nj|].
      apply (Sp n' T'). now rewrite (Eq _ _ _ E' X').
    + intros x X. rewrite Vk; [now apply Vj|]. intros A. apply assigned_vars in A. apply I in A. unfold mine in X. congruence.
  - destruct O as (_ & _ & Nw & _). intros a b n n' m A B.
    assert (Lt : forall j k, re j k m -> (m < List.length (s_heap t))%nat) by (intros j k E; destruct (Si j) as [Sj _]; now apply (hsim_lt _ _ _ _ _ Sj) in E).
    destruct (Nat.eqb_spec a i) as [->|Na], (Nat.eqb_spec b i) as [->|Nb]; [now left| | |eapply D; eauto].
    + destruct (Nw _ _ A) as [A'|[_ A']]; [eapply D; eauto|]. apply Lt in B. lia.
    + destruct (Nw _ _ B) as [B'|[_ B']]; [eapply D; eauto|]. apply Lt in A. lia.
  - destruct O as (_ & _ & Nw & _). intros a n m A C. destruct (Nat.eqb_spec a i) as [->|Na]; [|eapply Eq; eauto]. destruct (Nw _ _ A) as [A'|[_ A']]; [eapply Eq; eauto|]. apply com_old in C. lia.
  - lia.
Qed.
Lemma program_head i j c (q : schedule) : program_of i ((j, c) :: q) = if (j =? i)%nat then c :: program_of i q else program_of i q.
Proof. unfold program_of. cbn [filter fst]. now destruct (j =? i)%nat. Qed.
Lemma threads : forall q al re t, together al re t -> own_variables owner q -> (forall i, spares W (al i) (program_of i q) com) ->
  match run W t (map snd q) with
  | Some t' => forall i, exists s' R, run W (al i) (program_of i q) = Some s' /\ ssim (mine i) R s' t'
  | None => exists i, run W (al i) (program_of i q) = None
  end.
Proof.
  induction q as [|[i c] q IH]; intros al re t T I Sp.
  - cbn. intros i. exists (al i), (re i). split; [reflexivity|]. apply T.
  - cbn [map snd run]. assert (Ic : forall x, In x (vars c) -> owner x = i) by (apply I; now left). assert (Iq : own_variables owner q) by (intros j d J; apply I; now right).
    pose proof (Sp i) as Spi. rewrite program_head, Nat.eqb_refl in Spi. cbn [spares] in Spi. destruct Spi as [Sp1 Sp2].
    pose proof (step_sim W (mine i) c (re i) (al i) t (proj1 (proj2 T) i) Ic) as Q. destruct (step W t c) as [t1|] eqn:E.
    + destruct (step W (al i) c) as [s1|] eqn:E1; [|destruct Q]. destruct (together_step al re t i c s1 t1 T Ic Sp1 E Q) as [re' T'].
      assert (P : forall j, run W (al j) (program_of j ((i, c) :: q)) = run W (if (j =? i)%nat then s1 else al j) (program_of j q)).
      { intros j. rewrite program_head, (Nat.eqb_sym i j). destruct (Nat.eqb_spec j i) as [->|Nj]; [|reflexivity]. cbn [run]. now rewrite E1. }
      assert (Sq : forall j, spares W (if (j =? i)%nat then s1 else al j) (program_of j q) com).
      { intros j. pose proof (Sp j) as X. rewrite program_head, (Nat.eqb_sym i j) in X. destruct (j =? i)%nat eqn:J; [|exact X]. apply Nat.eqb_eq in J. subst j. exact Sp2. }
      specialize (IH _ re' t1 T' Iq Sq). destruct (run W t1 (map snd q)) as [t2|].
      * intros j. rewrite P. apply IH.
      * destruct IH as [j H]. exists j. now rewrite P.
    + destruct (step W (al i) c) as [s1|] eqn:E1; [destruct Q|]. exists i. rewrite program_head, Nat.eqb_refl. cbn [run]. now rewrite E1.
Qed.
End Threads.
Lemma together_start owner s : wf s -> together owner (common owner s) (List.length (s_heap s)) (fun _ => s) (fun i n m => n = m /\ exists x k, owner x = i /\ s_var s x = Some k /\ leads (s_heap s) k n) s.
Proof.
  intros Wf. pose proof Wf as [C V]. split; [exact Wf|]. split; [|split; [|split; [now intros i n m [E _]|lia]]].
  - intros i. split; [split|].
    + intros n m (<- & x & k & X & K & L). assert (Lt : (n < List.length (s_heap s))%nat) by (apply (leads_lt _ k); eauto).
      destruct (nth_error (s_heap s) n) as [d|] eqn:E; [|apply nth_error_None in E; lia]. exists d, d. split; [reflexivity|]. split; [reflexivity|].
      assert (Kd : forall j, In j (kids d) -> j = j /\ exists x k, owner x = i /\ s_var s x = Some k /\ leads (s_heap s) k j).
      { intros j J. split; [reflexivity|]. exists x, k. split; [exact X|]. split; [exact K|]. eapply leads_trans; [exact L|]. eapply L_down; [exact E|exact J|constructor]. }
      assert (Fd : forall l, (forall j, In j l -> In j (kids d)) -> Forall2 (fun n m => n = m /\ exists x k, owner x = i /\ s_var s x = Some k /\ leads (s_heap s) k n) l l).
      { induction l as [|a l IHl]; intros J; constructor; [apply Kd, J; now left|apply IHl; intros j I; apply J; now right]. }
      destruct d as [| |w p f b ks|p b|ks| |b ks|a u p|ks]; cbn [kids] in *; try (constructor; now auto).
      * constructor; [destruct p as [p|]; [constructor; apply Kd; now left|constructor]|]. destruct b as [[| |b]|]; [repeat constructor|repeat constructor| |constructor]. constructor. constructor. apply Kd, in_or_app. right. now left.
      * constructor; apply Kd; cbn; auto.
    + intros n m n' m' (<- & _) (<- & _). tauto.
    + intros x X. destruct (s_var s x) as [k|] eqn:E; constructor. split; [reflexivity|]. exists x, k. split; [exact X|]. split; [exact E|constructor].
  - intros i j n n' m (-> & x & k & X & K & L) (-> & y & k' & Y & K' & L'). destruct (Nat.eq_dec i j) as [E|E]; [now left|right]. exists x, y, k, k'. split; [congruence|auto].
Qed.
Lemma common_old owner s m : wf s -> common owner s m -> (m < List.length (s_heap s))%nat.
Proof. intros [C V] (x & y & n & k & _ & X & _ & L & _). apply (leads_lt _ n); eauto. Qed.
Lemma threads_start W owner s q : reached W s -> own_variables owner q -> (forall i, spares W s (program_of i q) (common owner s)) ->
  match run W s (map snd q) with
  | Some t' => forall i, exists s' R, run W s (program_of i q) = Some s' /\ ssim (mine owner i) R s' t'
  | None => exists i, run W s (program_of i q) = None
  end.
Proof.
  intros Rs I Sp. pose proof (reached_wf W s Rs) as Wf. exact (threads W owner (common owner s) _ (fun m => common_old owner s m Wf) q _ _ s (together_start owner s Wf) I Sp).
Qed.
Lemma spares_none W (com : nat -> Prop) : (forall m, ~ com m) -> forall q s, spares W s q com.
Proof. intros N. induction q as [|c q IH]; intros s; cbn [spares]; [exact I|]. split; [auto|]. destruct (step W s c); auto. Qed.
Lemma own_spares W owner s q : own_objects owner s -> spares W s q (common owner s).
Proof. intros A. apply spares_none. intros m (x & y & n & k & Ne & X & Y & L & L'). exact (A x y Ne n k m X Y L L'). Qed.

(* the joint execution ends exactly when the goroutines alone do, and then every variable
   shows what it shows when its goroutine runs alone *)
Theorem C138_alone : forall W owner s q t, reached W s -> own_variables owner q -> (forall i, spares W s (program_of i q) (common owner s)) -> run W s (map snd q) = Some t ->
  forall i, exists s', run W s (program_of i q) = Some s' /\ forall x, owner x = i -> shown W t x = shown W s' x /\ (s_var t x = None <-> s_var s' x = None).
Proof.
  intros W owner s q t Rs I Sp H i. pose proof (threads_start W owner s q Rs I Sp) as T. rewrite H in T. destruct (T i) as (s' & R & E & S & V).
  exists s'. split; [exact E|]. intros x X. unfold shown. destruct (V x X) as [|n m N]; [tauto|]. split; [symmetry; now apply (text_sim R)|]. split; discriminate.
Qed.
Theorem C138_ends : forall W owner s q, reached W s -> own_variables owner q -> (forall i, spares W s (program_of i q) (common owner s)) ->
  (run W s (map snd q) = None <-> exists i, run W s (program_of i q) = None).
Proof.
  intros W owner s q Rs I Sp. pose proof (threads_start W owner s q Rs I Sp) as T. destruct (run W s (map snd q)) as [t|]; [|tauto].
  split; [discriminate|]. intros [i E]. destruct (T i) as (s' & R & F & _). congruence.
Qed.
(* two schedules of the same goroutines *)
Theorem C138_schedules : forall W owner s q q' t, reached W s -> own_variables owner q -> own_variables owner q' -> (forall i, spares W s (program_of i q) (common owner s)) ->
  (forall i, program_of i q = program_of i q') -> run W s (map snd q) = Some t ->
  exists t', run W s (map snd q') = Some t' /\ forall x, shown W t x = shown W t' x.
Proof.
  intros W owner s q q' t Rs I I' Sp P H. assert (Sp' : forall i, spares W s (program_of i q') (common owner s)) by (intros i; rewrite <- P; apply Sp). destruct (run W s (map snd q')) as [t'|] eqn:E.
  - exists t'. split; [reflexivity|]. intros x. destruct (C138_alone W owner s q t Rs I Sp H (owner x)) as (s1 & E1 & F1). destruct (C138_alone W owner s q' t' Rs I' Sp' E (owner x)) as (s2 & E2 & F2).
    rewrite <- P, E1 in E2. injection E2 as ->. destruct (F1 x eq_refl) as [-> _]. destruct (F2 x eq_refl) as [-> _]. reflexivity.
  - apply (C138_ends W owner s q' Rs I' Sp') in E as [i E]. rewrite <- P in E. destruct (C138_alone W owner s q t Rs I Sp H i) as (s1 & E1 & _). congruence.
Qed.
(* goroutines that have no object in common need no further condition *)
Theorem C138_own : forall W owner s q t, reached W s -> own_variables owner q -> own_objects owner s -> run W s (map snd q) = Some t ->
  forall i, exists s', run W s (program_of i q) = Some s' /\ forall x, owner x = i -> shown W t x = shown W s' x.
Proof.
  intros W owner s q t Rs I A H i. destruct (C138_alone W owner s q t Rs I (fun i => own_spares W owner s _ A) H i) as (s' & E & F). exists s'. split; [exact E|]. intros x X. now apply F.
Qed.

(* ---------------- concrete cases ---------------- *)
(* goroutine 0 has the variables below 10, goroutine 1 the others; both make a
   permission-bind rule from the permission and the bind rule 0 and 10 hold *)
Definition cOwner (x : nat) : nat := if (x <? 10)%nat then 0 else 1.
Definition cProg : list stmt := [XPerm 0 true [MRights.AStr "read"]; XCopy 10 0; XRule 1 cA; XCopy 11 1].
Definition cState : st := match run W0 s_start cProg with Some s => s | None => s_start end.
Definition cSched : schedule :=
  [(0, XPbr 2 0 (BRuleVar 1)); (1, XPbr 12 10 (BRuleVar 11)); (1, XSet 13 [AText "b"; APBR 12]); (0, XSet 3 [AText "a"; APBR 2]); (0, XAcis 4); (1, XAcis 14); (1, XPushIns 14 [JVar 13]); (0, XPushIns 4 [JVar 3])]%nat.
(* the same two programs, one after the other *)
Definition cSched' : schedule := (filter (fun e => (fst e =? 1)%nat) cSched ++ filter (fun e => (fst e =? 0)%nat) cSched)%list.
Definition cEnd : st := match run W0 cState (map snd cSched) with Some s => s | None => s_start end.
Lemma cReached : reached W0 cState.
Proof. exists cProg. vm_compute. reflexivity. Qed.
Lemma vars_owned (q : schedule) : forallb (fun e => forallb (fun x => (cOwner x =? fst e)%nat) (vars (snd e))) q = true -> own_variables cOwner q.
Proof.
  intros H i c I x X. rewrite forallb_forall in H. specialize (H _ I). cbn [fst snd] in H. rewrite forallb_forall in H. now apply Nat.eqb_eq, H.
Qed.
Lemma spares_by W (com : nat -> Prop) b : (forall m, com m -> (m < b)%nat) -> forall q s,
  (fix go (s : st) (q : list stmt) : bool := match q with [] => true | c :: r => forallb (fun m => (b <=? m)%nat) (touched s c) && match step W s c with Some s' => go s' r | None => true end end) s q = true ->
  spares W s q com.
Proof.
  intros B. induction q as [|c q IH]; intros s H; cbn [spares]; [exact I|]. apply andb_prop in H as [H1 H2]. split; [|destruct (step W s c); auto].
  intros m M C. rewrite forallb_forall in H1. specialize (H1 m M). apply Nat.leb_le in H1. apply B in C. lia.
Qed.
Example C138_witness : reached W0 cState /\ own_variables cOwner cSched /\ own_variables cOwner cSched' /\ common cOwner cState 0 /\ common cOwner cState 1 /\
  (forall i, spares W0 cState (program_of i cSched) (common cOwner cState)) /\ (forall i, program_of i cSched = program_of i cSched') /\
  run W0 cState (map snd cSched) = Some cEnd /\ shown W0 cEnd 4 <> shown W0 cEnd 14 /\ shown W0 cEnd 4 <> None /\ shown W0 cEnd 14 <> None.
Proof.
  pose proof cReached as Rs.
  split; [exact Rs|]. split; [apply vars_owned; vm_compute; reflexivity|]. split; [apply vars_owned; vm_compute; reflexivity|].
  split; [exists 0, 10, 0, 0; split; [discriminate|]; split; [vm_compute; reflexivity|]; split; [vm_compute; reflexivity|]; split; constructor|].
  split; [exists 1, 11, 1, 1; split; [discriminate|]; split; [vm_compute; reflexivity|]; split; [vm_compute; reflexivity|]; split; constructor|].
  assert (P0 : forall q i, (forall e, In e q -> fst e = 0 \/ fst e = 1) -> i <> 0 -> i <> 1 -> program_of i q = []).
  { intros q i H N0 N1. unfold program_of. induction q as [|e q IH]; [reflexivity|]. cbn [filter]. destruct (Nat.eqb_spec (fst e) i) as [E|E]; [|apply IH; intros f F; apply H; now right].
    destruct (H e (or_introl eq_refl)); congruence. }
  assert (In01 : forall e, In e cSched -> fst e = 0 \/ fst e = 1) by (intros e I; repeat (destruct I as [<-|I]; [cbn; auto|]); destruct I).
  assert (In01' : forall e, In e cSched' -> fst e = 0 \/ fst e = 1) by (intros e I; apply in_app_or in I as [I|I]; apply filter_In in I as [I _]; auto).
  split; [|split].
  - intros i. destruct (Nat.eq_dec i 0) as [->|N0]; [|destruct (Nat.eq_dec i 1) as [->|N1]; [|rewrite (P0 cSched i In01 N0 N1); exact I]].
    + apply (spares_by W0 _ 2); [|vm_compute; reflexivity]. intros m M. apply common_old in M; [exact M|now apply (reached_wf W0)].
    + apply (spares_by W0 _ 2); [|vm_compute; reflexivity]. intros m M. apply common_old in M; [exact M|now apply (reached_wf W0)].
  - intros i. destruct (Nat.eq_dec i 0) as [->|N0]; [reflexivity|]. destruct (Nat.eq_dec i 1) as [->|N1]; [reflexivity|]. now rewrite (P0 cSched i In01 N0 N1), (P0 cSched' i In01' N0 N1).
  - split; [vm_compute; reflexivity|]. split; [|split]; vm_compute; discriminate.
Qed.
(* goroutines that change an object they have in common get in each other's way: the
   result depends on the schedule *)
Theorem C138_shared_refuted : ~ (forall W owner s q q' t t', reached W s -> own_variables owner q -> own_variables owner q' ->
  (forall i, program_of i q = program_of i q') -> run W s (map snd q) = Some t -> run W s (map snd q') = Some t' -> forall x, shown W t x = shown W t' x).
Proof.
  intros H. pose (a := (0, XShift 0 0 true [MRights.AStr "write"])). pose (b := (1, XShift 10 10 false [MRights.AStr "write"])).
  pose (t := match run W0 cState (map snd [a; b]) with Some s => s | None => s_start end). pose (t' := match run W0 cState (map snd [b; a]) with Some s => s | None => s_start end).
  assert (E : shown W0 t 0 = shown W0 t' 0); [|vm_compute in E; discriminate].
  apply (H W0 cOwner cState [a; b] [b; a] t t').
  - exact cReached.
  - apply vars_owned. vm_compute. reflexivity.
  - apply vars_owned. vm_compute. reflexivity.
  - intros i. unfold program_of, a, b. cbn [filter fst]. destruct (Nat.eqb_spec 0 i) as [<-|N0]; [reflexivity|]. destruct (1 =? i)%nat; reflexivity.
  - vm_compute. reflexivity.
  - vm_compute. reflexivity.
Qed.
Print Assumptions C138_alone.
Print Assumptions C138_ends.
Print Assumptions C138_schedules.
Print Assumptions C138_own.
Print Assumptions C138_shared_refuted.
