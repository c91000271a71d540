(* C140: under every schedule, goroutines that change no value they have in common see the
   values and rules they would see alone. *)
From Coq Require Import String Ascii List PeanoNat NArith ZArith Bool Lia.
From Verif Require Import GoStr Shifty MMisc MKw MRights MLists MRule MSec MNet MTime MMeth MHeap MShare SThreads PThreads.
Import ListNotations.

Section Values.
Context {T A : Type}.
Variable O : obj T A.
Inductive vrel (R : rel) : option (cond * ptr) -> option (cond * ptr) -> Prop :=
| V_none : vrel R None None
| V_some c p q : orel R p q -> vrel R (Some (c, p)) (Some (c, q)).
Definition vsim (V : vname -> Prop) (R : rel) (s t : @vst T) : Prop :=
  hrel R eq (st_heap (v_st s)) (st_heap (v_st t)) /\
  (forall x, V (VVal x) -> orel R (st_var (v_st s) x) (st_var (v_st t) x)) /\
  (forall r, V (VRul r) -> vrel R (v_rule s r) (v_rule t r)).
Definition vlive (s : @vst T) (n : nat) : Prop := (n < List.length (st_heap (v_st s)))%nat.
Lemma rd_sim R (h t : list T) p q : hrel R eq h t -> orel R p q -> rd h p = rd t q.
Proof. intros H [|n m K]; [reflexivity|]. cbn. destruct (proj1 H n m K) as (d & e & -> & -> & ->). reflexivity. Qed.
Lemma vrel_mono (R R' : rel) p q : vrel R p q -> (forall n m, R n m -> R' n m) -> vrel R' p q.
Proof. intros [] M; constructor; eauto using orel_mono. Qed.
Lemma hcall_sim R (h t : list T) p q a h1 p1 p2 t1 q1 q2 : hrel R eq h t -> orel R p q -> hcall O h p a = (h1, p1, p2) -> hcall O t q a = (t1, q1, q2) ->
  exists R', hrel R' eq h1 t1 /\ (forall n m, R n m -> R' n m) /\ (forall n m, R' n m -> R n m \/ (List.length t <= m)%nat) /\ orel R' p1 q1 /\ orel R' p2 q2.
Proof.
  intros H P. unfold hcall. rewrite <- (rd_sim R h t p q H P). destruct (o_set O (rd h p) a) as [c|].
  2: { intros [= <- <- <-] [= <- <- <-]. exists R. auto. }
  assert (New : exists R', hrel R' eq (h ++ [c])%list (t ++ [c])%list /\ (forall n m, R n m -> R' n m) /\ (forall n m, R' n m -> R n m \/ (List.length t <= m)%nat) /\
    orel R' (if o_ptr O a then Some (List.length h) else p) (if o_ptr O a then Some (List.length t) else q) /\ orel R' (Some (List.length h)) (Some (List.length t))).
  { exists (radd R (List.length h) (List.length t)). split; [now apply (hrel_snoc _ eq)|]. split; [intros; now apply radd_old|]. split; [intros n m [K|[_ ->]]; [now left|right; lia]|].
    split; [|constructor; apply radd_new]. destruct (o_ptr O a); [constructor; apply radd_new|]. eapply orel_mono; [exact P|]. intros; now apply radd_old. }
  destruct P as [|n m K].
  - intros [= <- <- <-] [= <- <- <-]. exact New.
  - destruct (o_keeps O (rd h (Some n)) a).
    + intros [= <- <- <-] [= <- <- <-]. exists R. split; [now apply hrel_wr|]. split; [auto|]. split; [auto|]. split; now constructor.
    + intros [= <- <- <-] [= <- <- <-]. exact New.
Qed.
Ltac vget H := apply H; cbn [v_vars In]; auto.
Lemma upd_orel (V : vname -> Prop) (R R' : rel) (f g : nat -> ptr) y p q : (forall x, V (VVal x) -> orel R (f x) (g x)) -> (forall n m, R n m -> R' n m) -> orel R' p q ->
  forall x, V (VVal x) -> orel R' (upd f y p x) (upd g y q x).
Proof. intros H M P x X. unfold upd. destruct (x =? y)%nat; [exact P|]. eapply orel_mono; eauto. Qed.
Lemma v_sim_step V R s t c : vsim V R s t -> (forall x, In x (v_vars c) -> V x) ->
  exists R', vsim V R' (vexec O s c) (vexec O t c) /\ forall n m, R' n m -> R n m \/ ~ vlive t m.
Proof.
  intros (H & Hv & Hr) I. destruct c as [[x v|x y|x a|z x a]|r x f|r q]; cbn [vexec exec].
  - destruct v as [d|]; cbn [alloc].
    + exists (radd R (List.length (st_heap (v_st s))) (List.length (st_heap (v_st t)))). split; [|intros n m [K|[_ ->]]; [now left|right; unfold vlive; lia]]. split; [|split].
      * now apply (hrel_snoc _ eq).
      * apply (upd_orel V R); [exact Hv|intros; now apply radd_old|constructor; apply radd_new].
      * intros r X. eapply vrel_mono; [now apply Hr|]. intros; now apply radd_old.
    + exists R. split; [|auto]. split; [exact H|]. split; [|exact Hr]. apply (upd_orel V R); [exact Hv|auto|constructor].
  - exists R. split; [|auto]. split; [exact H|]. split; [|exact Hr]. apply (upd_orel V R); [exact Hv|auto|]. apply Hv. vget I.
  - destruct (hcall O (st_heap (v_st s)) (st_var (v_st s) x) a) as [[h1 p1] p2] eqn:E. destruct (hcall O (st_heap (v_st t)) (st_var (v_st t) x) a) as [[t1 q1] q2] eqn:F.
    assert (P : orel R (st_var (v_st s) x) (st_var (v_st t) x)) by (apply Hv; vget I).
    destruct (hcall_sim R _ _ _ _ a _ _ _ _ _ _ H P E F) as (R' & H' & M & Nw & P1 & _).
    exists R'. split; [|intros n m K; destruct (Nw n m K); [now left|right; unfold vlive; lia]]. split; [exact H'|]. split; [now apply (upd_orel V R)|].
    intros r X. eapply vrel_mono; [now apply Hr|exact M].
  - destruct (hcall O (st_heap (v_st s)) (st_var (v_st s) x) a) as [[h1 p1] p2] eqn:E. destruct (hcall O (st_heap (v_st t)) (st_var (v_st t) x) a) as [[t1 q1] q2] eqn:F.
    assert (P : orel R (st_var (v_st s) x) (st_var (v_st t) x)) by (apply Hv; vget I).
    destruct (hcall_sim R _ _ _ _ a _ _ _ _ _ _ H P E F) as (R' & H' & M & Nw & P1 & P2).
    exists R'. split; [|intros n m K; destruct (Nw n m K); [now left|right; unfold vlive; lia]]. split; [exact H'|]. split.
    + apply (upd_orel V R'); [now apply (upd_orel V R)|auto|exact P2].
    + intros r X. eapply vrel_mono; [now apply Hr|exact M].
  - exists R. split; [|auto]. split; [exact H|]. split; [exact Hv|]. cbn [v_rule]. intros k X. unfold upd. destruct (k =? r)%nat; [|now apply Hr].
    assert (P : orel R (st_var (v_st s) x) (st_var (v_st t) x)) by (apply Hv; vget I).
    unfold look. rewrite (rd_sim R _ _ _ _ H P). destruct (f _); constructor. exact P.
  - exists R. split; [|auto]. split; [exact H|]. split; [exact Hv|]. cbn [v_rule]. intros k X. unfold upd. destruct (k =? r)%nat; [|now apply Hr]. apply Hr. vget I.
Qed.
Lemma upd_free {W} (f : nat -> W) y v (P : nat -> Prop) : ~ P y -> forall x, P x -> upd f y v x = f x.
Proof. intros N x X. apply upd_other. intros ->. now apply N. Qed.
Lemma hcall_frame R (h t : list T) q a t1 q1 q2 : hrel R eq h t -> (forall n m, R n m -> q = Some m -> o_keeps O (rd t q) a = true -> False) -> hcall O t q a = (t1, q1, q2) -> hrel R eq h t1.
Proof.
  intros H D. unfold hcall. destruct (o_set O (rd t q) a) as [c|]; [|now intros [= <- _ _]]. destruct q as [m|].
  - destruct (o_keeps O (rd t (Some m)) a) eqn:K; intros [= <- _ _]; [|now apply hrel_frame_snoc]. apply hrel_frame_wr; [exact H|]. intros n X. now apply (D n m X).
  - intros [= <- _ _]. now apply hrel_frame_snoc.
Qed.
Lemma v_sim_frame V R s t c : vsim V R s t -> (forall x, In x (v_vars c) -> ~ V x) -> (forall n m, R n m -> ~ v_changes O t c m) -> vsim V R s (vexec O t c).
Proof.
  intros (H & Hv & Hr) I D. destruct c as [[x v|x y|x a|z x a]|r x f|r q]; cbn [vexec exec] in *.
  - destruct v as [d|]; cbn [alloc].
    + split; [now apply hrel_frame_snoc|]. split; [|exact Hr]. intros k X. cbn [v_st st_var]. rewrite (upd_free _ _ _ (fun k => V (VVal k))); [now apply Hv| |exact X]. vget I.
    + split; [exact H|]. split; [|exact Hr]. intros k X. cbn [v_st st_var]. rewrite (upd_free _ _ _ (fun k => V (VVal k))); [now apply Hv| |exact X]. vget I.
  - split; [exact H|]. split; [|exact Hr]. intros k X. cbn [v_st st_var]. rewrite (upd_free _ _ _ (fun k => V (VVal k))); [now apply Hv| |exact X]. vget I.
  - destruct (hcall O (st_heap (v_st t)) (st_var (v_st t) x) a) as [[t1 q1] q2] eqn:F. split; [|split].
    + eapply hcall_frame; [exact H| |exact F]. intros n m X E K. apply (D n m X). now split.
    + intros k X. cbn [v_st st_var]. rewrite (upd_free _ _ _ (fun k => V (VVal k))); [now apply Hv| |exact X]. vget I.
    + exact Hr.
  - destruct (hcall O (st_heap (v_st t)) (st_var (v_st t) x) a) as [[t1 q1] q2] eqn:F. split; [|split].
    + eapply hcall_frame; [exact H| |exact F]. intros n m X E K. apply (D n m X). now split.
    + intros k X. cbn [v_st st_var]. rewrite !(upd_free _ _ _ (fun k => V (VVal k))); [now apply Hv| |exact X| |exact X]; vget I.
    + exact Hr.
  - split; [exact H|]. split; [exact Hv|]. intros k X. cbn [v_rule]. rewrite (upd_free _ _ _ (fun k => V (VRul k))); [now apply Hr| |exact X]. vget I.
  - split; [exact H|]. split; [exact Hv|]. intros k X. cbn [v_rule]. rewrite (upd_free _ _ _ (fun k => V (VRul k))); [now apply Hr| |exact X]. vget I.
Qed.
Lemma v_sim_changes V R s t c m : vsim V R s t -> (forall x, In x (v_vars c) -> V x) -> v_changes O t c m -> exists n, R n m /\ v_changes O s c n.
Proof.
  intros (H & Hv & Hr) I. destruct c as [[x v|x y|x a|z x a]|r x f|r q]; cbn [v_changes]; try tauto.
  all: intros [E K]; assert (P : orel R (st_var (v_st s) x) (st_var (v_st t) x)) by (apply Hv; vget I); unfold look in *;
    rewrite <- (rd_sim R _ _ _ _ H P) in K; rewrite E in P; inversion P as [|n m' X E1 E2]; subst; exists n; rewrite <- E1 in *; auto.
Qed.
Lemma v_sim_live V R s t n m : vsim V R s t -> R n m -> vlive t m.
Proof. intros (H & _) K. now apply (hrel_lt _ _ _ _ _ _ H) in K. Qed.
Lemma hcall_len (t : list T) q a t1 q1 q2 : hcall O t q a = (t1, q1, q2) -> (List.length t <= List.length t1)%nat.
Proof.
  unfold hcall. destruct (o_set O (rd t q) a); [|intros [= <- _ _]; lia]. destruct q as [m|]; [destruct (o_keeps O _ a)|]; intros [= <- _ _]; rewrite ?wr_len, ?app_length; lia.
Qed.
Lemma v_live_step t c m : vlive t m -> vlive (vexec O t c) m.
Proof.
  unfold vlive. destruct c as [[x v|x y|x a|z x a]|r x f|r q]; cbn [vexec exec]; auto.
  - destruct v; cbn [alloc v_st st_heap]; rewrite ?app_length; lia.
  - destruct (hcall O (st_heap (v_st t)) (st_var (v_st t) x) a) as [[t1 q1] q2] eqn:F. apply hcall_len in F. cbn [v_st st_heap]. lia.
  - destruct (hcall O (st_heap (v_st t)) (st_var (v_st t) x) a) as [[t1 q1] q2] eqn:F. apply hcall_len in F. cbn [v_st st_heap]. lia.
Qed.
Definition vfine (s : @vst T) : Prop := forall x n, v_leads s x n -> vlive s n.
Lemma vfine_step s c : vfine s -> vfine (vexec O s c).
Proof.
  intros F x n L.
  assert (S : vsim (fun _ => True) (fun n m => n = m /\ vlive s n) s s).
  { split; [split|split].
    - intros a b [<- Lt]. unfold vlive in Lt. destruct (nth_error (st_heap (v_st s)) a) as [d|] eqn:E; [now exists d, d|]. apply nth_error_None in E. lia.
    - intros a b a' b' [<- _] [<- _]. tauto.
    - intros k _. destruct (st_var (v_st s) k) as [m|] eqn:E; constructor. split; [reflexivity|]. now apply (F (VVal k)).
    - intros k _. destruct (v_rule s k) as [[d p]|] eqn:E; constructor. destruct p as [m|]; constructor. split; [reflexivity|]. apply (F (VRul k)). now exists d. }
  destruct (v_sim_step _ _ _ _ c S (fun _ _ => I)) as (R' & S' & _). destruct S' as (H & Hv & Hr). destruct x as [x|r]; cbn [v_leads] in L.
  - pose proof (Hv x I) as P. rewrite L in P. inversion P; subst. now apply (hrel_lt _ _ _ _ _ _ H) in H2.
  - destruct L as [d L]. pose proof (Hr r I) as P. rewrite L in P. inversion P as [|c' p q Q E1 E2]; subst. inversion Q; subst. now apply (hrel_lt _ _ _ _ _ _ H) in H2.
Qed.
Lemma vfine_run : forall p s, vfine s -> vfine (vrun O s p).
Proof. induction p as [|c p IH]; intros s F; [exact F|]. cbn. apply IH. now apply vfine_step. Qed.
Lemma vfine_start : vfine vstart.
Proof. intros [x|r] n; cbn; [discriminate|]. now intros [c L]. Qed.
Lemma v_wf_sim (V : vname -> Prop) s : vfine s -> vsim V (fun n m => n = m /\ exists x, V x /\ v_leads s x n) s s.
Proof.
  intros F. split; [split|split].
  - intros a b (<- & x & _ & L). apply F in L. unfold vlive in L. destruct (nth_error (st_heap (v_st s)) a) as [d|] eqn:E; [now exists d, d|]. apply nth_error_None in E. lia.
  - intros a b a' b' [<- _] [<- _]. tauto.
  - intros k X. destruct (st_var (v_st s) k) as [m|] eqn:E; constructor. split; [reflexivity|]. now exists (VVal k).
  - intros k X. destruct (v_rule s k) as [[d p]|] eqn:E; constructor. destruct p as [m|]; constructor. split; [reflexivity|]. exists (VRul k). split; [exact X|]. now exists d.
Qed.
End Values.

(* every variable shows what it shows when its goroutine runs alone: [txt] is the String
   method of the values; the state the goroutines start in is reached by any program *)
Theorem C140_alone : forall (T A : Type) (O : obj T A) (txt : option T -> string) (owner : vname -> nat) p (q : @schedule (@vcmd T A)),
  let s := vrun O vstart p in
  own_variables v_vars owner q -> (forall i, spares (vexec O) (v_changes O) s (program_of i q) (common v_leads owner s)) ->
  let joint := vrun O s (map snd q) in
  forall i, let alone := vrun O s (program_of i q) in
  (forall x, owner (VVal x) = i -> look (v_st joint) x = look (v_st alone) x) /\
  (forall r, owner (VRul r) = i -> vlook txt joint r = vlook txt alone r).
Proof.
  intros T A O txt owner p q s I Sp joint i alone.
  destruct (threads_start (vexec O) v_vars (v_changes O) v_leads vlive vsim vfine (v_sim_step O) (v_sim_frame O) (v_sim_changes O) v_sim_live (v_live_step O) v_wf_sim
    owner s q (vfine_run O p vstart vfine_start) I Sp i) as (R & H & Hv & Hr).
  change (runs (vexec O) s (program_of i q)) with alone in *. change (runs (vexec O) s (map snd q)) with joint in *. clearbody alone joint. split.
  - intros x X. symmetry. exact (rd_sim R _ _ _ _ H (Hv x X)).
  - intros r X. unfold vlook. destruct (Hr r X) as [|c a b Q]; [reflexivity|]. now rewrite (rd_sim R _ _ _ _ H Q).
Qed.
(* two schedules of the same goroutines *)
Theorem C140_schedules : forall (T A : Type) (O : obj T A) (txt : option T -> string) (owner : vname -> nat) p (q q' : @schedule (@vcmd T A)),
  let s := vrun O vstart p in
  own_variables v_vars owner q -> own_variables v_vars owner q' -> (forall i, spares (vexec O) (v_changes O) s (program_of i q) (common v_leads owner s)) ->
  (forall i, program_of i q = program_of i q') ->
  (forall x, look (v_st (vrun O s (map snd q))) x = look (v_st (vrun O s (map snd q'))) x) /\
  (forall r, vlook txt (vrun O s (map snd q)) r = vlook txt (vrun O s (map snd q')) r).
Proof.
  intros T A O txt owner p q q' s I I' Sp P. assert (Sp' : forall i, spares (vexec O) (v_changes O) s (program_of i q') (common v_leads owner s)) by (intros i; rewrite <- P; apply Sp).
  split.
  - intros x. destruct (C140_alone T A O txt owner p q I Sp (owner (VVal x))) as [H _]. destruct (C140_alone T A O txt owner p q' I' Sp' (owner (VVal x))) as [H' _].
    fold s in H, H'. rewrite (H x eq_refl), (H' x eq_refl), P. reflexivity.
  - intros r. destruct (C140_alone T A O txt owner p q I Sp (owner (VRul r))) as [_ H]. destruct (C140_alone T A O txt owner p q' I' Sp' (owner (VRul r))) as [_ H'].
    fold s in H, H'. rewrite (H r eq_refl), (H' r eq_refl), P. reflexivity.
Qed.

(* ---------------- concrete cases ---------------- *)
(* an address both goroutines hold (variables 0 and 10): goroutine 0 makes a rule from it,
   goroutine 1 too, and each fills an address of its own *)
Definition vOwner (x : vname) : nat := match x with VVal x | VRul x => if (x <? 10)%nat then 0 else 1 end.
Definition vProg : list (@vcmd (list string) (list string)) := [VDo (CNew 0 (IP ["10.0.0.1"])); VDo (CCopy 10 0)].
Definition vSched : @schedule (@vcmd (list string) (list string)) :=
  [(0, VMake 0 0 (ip_Eq true)); (1, VMake 10 10 (ip_Ne true)); (1, VDo (CNew 11 None)); (0, VDo (CNew 1 (IP ["1.1.1.1"])));
   (0, VDo (CCall 1 ["2.2.2.2"])); (1, VDo (CCall 11 ["3.3.3.3"])); (1, VMake 11 11 (ip_Eq true)); (0, VMake 1 1 (ip_Eq true)); (1, VDo (CCall 11 ["4.4.4.4"]))]%nat.
Definition vSched' : @schedule (@vcmd (list string) (list string)) :=
  (filter (fun e => (fst e =? 1)%nat) vSched ++ filter (fun e => (fst e =? 0)%nat) vSched)%list.
Lemma v_owned (q : @schedule (@vcmd (list string) (list string))) : forallb (fun e => forallb (fun x => (vOwner x =? fst e)%nat) (v_vars (snd e))) q = true -> own_variables v_vars vOwner q.
Proof. intros H i c K x X. rewrite forallb_forall in H. specialize (H _ K). cbn [fst snd] in H. rewrite forallb_forall in H. now apply Nat.eqb_eq, H. Qed.
Lemma v_two {S} (q : @schedule S) i : forallb (fun e => (fst e <? 2)%nat) q = true -> i <> 0%nat -> i <> 1%nat -> program_of i q = [].
Proof.
  intros H N0 N1. unfold program_of. induction q as [|e q IH]; [reflexivity|]. cbn [forallb] in H. apply andb_prop in H as [E H]. apply Nat.ltb_lt in E. cbn [filter].
  destruct (Nat.eqb_spec (fst e) i) as [X|X]; [lia|now apply IH].
Qed.
Example C140_witness : let s := vrun o_ip vstart vProg in
  own_variables v_vars vOwner vSched /\ own_variables v_vars vOwner vSched' /\ common v_leads vOwner s 0%nat /\
  (forall i, spares (vexec o_ip) (v_changes o_ip) s (program_of i vSched) (common v_leads vOwner s)) /\ (forall i, program_of i vSched = program_of i vSched') /\
  vSched <> vSched' /\
  map (fun r => br_string (vlook ipaddr_string (vrun o_ip s (map snd vSched)) r)) [0; 10; 1; 11]%nat =
    ["ip = " ++ quote "10.0.0.1"; "ip != " ++ quote "10.0.0.1"; "ip = " ++ quote "1.1.1.1,2.2.2.2"; "ip = " ++ quote "3.3.3.3,4.4.4.4"]%string.
Proof.
  intros s. split; [apply v_owned; reflexivity|]. split; [apply v_owned; reflexivity|]. split; [exists (VVal 0), (VVal 10); split; [discriminate|]; split; reflexivity|].
  assert (C : forall m, common v_leads vOwner s m -> m = 0%nat).
  { intros m (x & y & _ & L & _). destruct x as [x|r]; [|destruct L as [c L]; discriminate L]. unfold v_leads, s, vProg, vrun in L. cbn in L. unfold upd in L. cbn in L.
    destruct (x =? 10)%nat; [congruence|]. destruct (x =? 0)%nat; congruence. }
  split; [|split; [|split; [discriminate|vm_compute; reflexivity]]].
  - intros i. destruct (Nat.eq_dec i 0) as [->|N0]; [|destruct (Nat.eq_dec i 1) as [->|N1]; [|rewrite (v_two vSched i eq_refl N0 N1); exact I]].
    all: unfold program_of, vSched; cbn [filter fst map snd Nat.eqb]; cbn [spares v_changes]; repeat split; try tauto; intros m [E _] M; apply C in M; subst m; vm_compute in E; discriminate E.
  - intros i. destruct (Nat.eq_dec i 0) as [->|N0]; [reflexivity|]. destruct (Nat.eq_dec i 1) as [->|N1]; [reflexivity|].
    now rewrite (v_two vSched i eq_refl N0 N1), (v_two vSched' i eq_refl N0 N1).
Qed.
(* goroutines that change an address they have in common: the result depends on the schedule *)
Theorem C140_shared_refuted : ~ (forall (T A : Type) (O : obj T A) (owner : vname -> nat) p (q q' : @schedule (@vcmd T A)),
  let s := vrun O vstart p in own_variables v_vars owner q -> own_variables v_vars owner q' -> (forall i, program_of i q = program_of i q') ->
  forall x, look (v_st (vrun O s (map snd q))) x = look (v_st (vrun O s (map snd q'))) x).
Proof.
  intros H. specialize (H _ _ o_ip vOwner vProg [(0, VDo (CCall 0 ["1.1.1.1"%string])); (1, VDo (CCall 10 ["2.2.2.2"%string]))]%nat [(1, VDo (CCall 10 ["2.2.2.2"%string])); (0, VDo (CCall 0 ["1.1.1.1"%string]))]%nat).
  assert (E : look (v_st (vrun o_ip (vrun o_ip vstart vProg) [VDo (CCall 0 ["1.1.1.1"%string]); VDo (CCall 10 ["2.2.2.2"%string])])) 0 = look (v_st (vrun o_ip (vrun o_ip vstart vProg) [VDo (CCall 10 ["2.2.2.2"%string]); VDo (CCall 0 ["1.1.1.1"%string])])) 0).
  2: { vm_compute in E. discriminate E. }
  apply H; [apply v_owned; reflexivity|apply v_owned; reflexivity|]. intros i. unfold program_of. cbn [filter fst]. destruct (Nat.eqb_spec 0 i) as [<-|N0]; [reflexivity|]. now destruct (1 =? i)%nat.
Qed.
Print Assumptions C140_alone.
Print Assumptions C140_schedules.
Print Assumptions C140_shared_refuted.
