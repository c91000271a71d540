(* C141: under every schedule, goroutines that change no list and no rule they have in
   common see the lists and rules they would see alone. *)
From Coq Require Import String Ascii List PeanoNat NArith ZArith Bool Lia.
From Verif Require Import GoStr MMisc MAttr MKw MLists MRule MMeth MHeap MShare SShare TShare SThreads PThreads.
Import ListNotations.

Inductive xrel (R : rel) : rex -> rex -> Prop :=
| X_none : xrel R RNone RNone
| X_val e : xrel R (RVal e) (RVal e)
| X_list n m : R n m -> xrel R (RList n) (RList m).
Inductive crel (R : rel) : rcell -> rcell -> Prop :=
| C_cell t c e f : xrel R e f -> crel R (MkRC t c e) (MkRC t c f).
Definition lrel := lobj -> lobj -> Prop.
Definition RL (R : lrel) : rel := fun n m => R (OLst n) (OLst m).
Definition RR (R : lrel) : rel := fun n m => R (ORul n) (ORul m).
Definition mk (A B : rel) : lrel := fun o p => match o, p with OLst n, OLst m => A n m | ORul n, ORul m => B n m | _, _ => False end.
Record lsim (V : lname -> Prop) (R : lrel) (s t : sst) : Prop := MkSim {
  ls_wf : wf s /\ wf t;
  ls_kind : (forall n m, ~ R (OLst n) (ORul m)) /\ (forall n m, ~ R (ORul n) (OLst m));
  ls_lists : hrel (RL R) eq (s_lists s) (s_lists t);
  ls_rules : hrel (RR R) (crel (RL R)) (s_rules s) (s_rules t);
  ls_lvar : forall x, V (VLst x) -> orel (RL R) (s_lvar s x) (s_lvar t x);
  ls_rvar : forall x, V (VLRul x) -> orel (RR R) (s_rvar s x) (s_rvar t x) }.
Definition llive (s : sst) (o : lobj) : Prop :=
  match o with OLst n => (n < List.length (s_lists s))%nat | ORul n => (n < List.length (s_rules s))%nat end.
Lemma xrel_mono (R R' : rel) e f : xrel R e f -> (forall n m, R n m -> R' n m) -> xrel R' e f.
Proof. intros [] M; constructor; auto. Qed.
Lemma crel_mono (R R' : rel) c d : crel R c d -> (forall n m, R n m -> R' n m) -> crel R' c d.
Proof. intros [] M; constructor; eauto using xrel_mono. Qed.
Lemma now_sim R h t c d : hrel R eq h t -> crel R c d -> rule_now h c = rule_now t d.
Proof.
  intros H [b k e f X]. unfold rule_now. cbn [rc_cond rc_ex]. f_equal. f_equal. destruct X as [|e|n m K]; try reflexivity.
  cbn [rex_value]. destruct (proj1 H n m K) as (x & y & -> & -> & ->). reflexivity.
Qed.
Section Prog.
Variable eqf : string -> string -> bool.
Variable dotnot : string -> option string.
Variable pad : bool.
Notation step := (s_step eqf dotnot pad).
Ltac lget H := apply H; cbn [l_vars In]; auto.
Lemma upd_sim (P : nat -> Prop) (R R' : rel) (f g : nat -> option nat) y p q : (forall x, P x -> orel R (f x) (g x)) -> (forall n m, R n m -> R' n m) -> orel R' p q ->
  forall x, P x -> orel R' (upd f y p x) (upd g y q x).
Proof. intros H M Q x X. unfold upd. destruct (x =? y)%nat; [exact Q|]. eapply orel_mono; eauto. Qed.
Lemma new_rule_sim V R s t r c d : lsim V R s t -> crel (RL R) c d -> wf (new_rule s r c) -> wf (new_rule t r d) ->
  exists R', lsim V R' (new_rule s r c) (new_rule t r d) /\ forall n m, R' n m -> R n m \/ ~ llive t m.
Proof.
  intros [W Kd Hl Hr Vl Vr] C Ws Wt. exists (mk (RL R) (radd (RR R) (List.length (s_rules s)) (List.length (s_rules t)))). split.
  - constructor; cbn [new_rule s_lists s_rules s_lvar s_rvar]; [now split|split; intros n m X; exact X|exact Hl| |exact Vl|].
    + apply (hrel_snoc (RR R) (crel (RL R))); auto.
    + apply (upd_sim (fun x => V (VLRul x)) (RR R)); [exact Vr|intros; now apply radd_old|constructor; apply radd_new].
  - intros [n|n] [m|m]; cbn; try tauto. intros [K|[_ ->]]; [now left|right; lia].
Qed.
Lemma with_rule_sim V R s t n m c d : lsim V R s t -> RR R n m -> crel (RL R) c d -> wf (with_rule s n c) -> wf (with_rule t m d) -> lsim V R (with_rule s n c) (with_rule t m d).
Proof. intros [W Kd Hl Hr Vl Vr] K C Ws Wt. constructor; cbn [with_rule s_lists s_rules s_lvar s_rvar]; auto. now apply hrel_wr. Qed.
Lemma with_cell_sim V R s t n m c : lsim V R s t -> RL R n m -> lsim V R (with_cell s n c) (with_cell t m c).
Proof.
  intros [[Ws Wt] Kd Hl Hr Vl Vr] K. constructor; cbn [with_cell s_lists s_rules s_lvar s_rvar]; auto; [split; now apply wf_with_cell|]. now apply hrel_wr.
Qed.
Lemma same V (R : lrel) (t s' t' : sst) : lsim V R s' t' -> exists R', lsim V R' s' t' /\ forall n m, R' n m -> R n m \/ ~ llive t m.
Proof. intros S. exists R. auto. Qed.
Lemma call_sim V R s t r m : lsim V R s t -> V (VLRul r) -> wf (rule_call s r m) -> wf (rule_call t r m) ->
  exists R', lsim V R' (rule_call s r m) (rule_call t r m) /\ forall n k, R' n k -> R n k \/ ~ llive t k.
Proof.
  intros S X. unfold rule_call. destruct (ls_rvar _ _ _ _ S r X) as [|n k K].
  - destruct (rcall_step m None) as [c|]; [|now intros _ _; apply same]. intros Ws Wt. apply new_rule_sim; auto. constructor. destruct (c_ex c); constructor.
  - destruct (proj1 (ls_rules _ _ _ _ S) n k K) as (c & d & E & F & C). rewrite E, F. pose proof (now_sim (RL R) _ _ c d (ls_lists _ _ _ _ S) C) as Nw. rewrite <- Nw.
    destruct C as [b co e f C]. cbn [rc_target rc_ex rc_cond]. destruct (negb _); [now intros _ _; apply same|]. destruct (rcall_step m _) as [dd|] eqn:Q; [|now intros _ _; apply same].
    destruct (rcall_expr m) as [ee|] eqn:Ex.
    + intros Ws Wt. apply same, with_rule_sim; auto. constructor. destruct ee; constructor.
    + destruct C as [|v|a l Kl]; try (intros Ws Wt; apply same, with_rule_sim; auto; constructor; now constructor).
      destruct (c_ex dd) as [[tx|kk bb vs|st vs]|]; try (intros Ws Wt; apply same, with_rule_sim; auto; constructor; now constructor).
      destruct (proj1 (ls_lists _ _ _ _ S) a l Kl) as (x & y & -> & -> & <-). intros Ws Wt. apply same, with_rule_sim; auto; [|constructor; now constructor]. now apply with_cell_sim.
Qed.
Lemma l_sim_step V R s t c : lsim V R s t -> (forall x, In x (l_vars c) -> V x) ->
  exists R', lsim V R' (step s c) (step t c) /\ forall n m, R' n m -> R n m \/ ~ llive t m.
Proof.
  intros S I. pose proof (wf_step eqf dotnot pad s c (proj1 (ls_wf _ _ _ _ S))) as Ws. pose proof (wf_step eqf dotnot pad t c (proj2 (ls_wf _ _ _ _ S))) as Wt.
  destruct c as [x k|x y|x m|r x op|r x|r q|r m]; cbn [s_step] in *.
  - destruct S as [W Kd Hl Hr Vl Vr]. exists (mk (radd (RL R) (List.length (s_lists s)) (List.length (s_lists t))) (RR R)). split.
    + constructor; cbn [s_lists s_rules s_lvar s_rvar]; [now split|split; intros n m X; exact X| | | |exact Vr].
      * now apply (hrel_snoc (RL R) eq).
      * eapply hrel_mono; [exact Hr|]. intros d e C. eapply crel_mono; [exact C|]. intros; now apply radd_old.
      * apply (upd_sim (fun x => V (VLst x)) (RL R)); [exact Vl|intros; now apply radd_old|constructor; apply radd_new].
    + intros [n|n] [m|m]; cbn; try tauto. intros [K|[_ ->]]; [now left|right; lia].
  - apply same. destruct S as [W Kd Hl Hr Vl Vr]. constructor; cbn [s_lists s_rules s_lvar s_rvar]; auto. apply (upd_sim (fun x => V (VLst x)) (RL R)); auto. apply Vl. lget I.
  - assert (X : V (VLst x)) by lget I. destruct (ls_lvar _ _ _ _ S x X) as [|n m' K]; [now apply same|].
    destruct (proj1 (ls_lists _ _ _ _ S) n m' K) as (d & e & -> & -> & <-). now apply same, with_cell_sim.
  - assert (X : V (VLst x)) by lget I. destruct (ls_lvar _ _ _ _ S x X) as [|n m K].
    + apply same. destruct S as [W Kd Hl Hr Vl Vr]. constructor; cbn [s_lists s_rules s_lvar s_rvar]; auto. apply (upd_sim (fun x => V (VLRul x)) (RR R)); auto. constructor.
    + destruct (proj1 (ls_lists _ _ _ _ S) n m K) as (d & e & E1 & E2 & <-). rewrite E1, E2 in *. destruct (con_rule pad (l_con d) op) as [c|].
      * apply new_rule_sim; auto. constructor. now constructor.
      * apply same. destruct S as [W Kd Hl Hr Vl Vr]. constructor; cbn [s_lists s_rules s_lvar s_rvar]; auto. apply (upd_sim (fun x => V (VLRul x)) (RR R)); auto. constructor.
  - assert (X : V (VLst x)) by lget I. assert (Y : V (VLRul r)) by lget I. destruct (ls_rvar _ _ _ _ S r Y) as [|n m K]; [now apply same|]. destruct (ls_lvar _ _ _ _ S x X) as [|a b Kl]; [now apply same|].
    destruct (proj1 (ls_rules _ _ _ _ S) n m K) as (c & d & E & F & C). rewrite E, F in *. apply same, with_rule_sim; auto. destruct C as [tg co e f C]. cbn [rc_target rc_cond]. constructor. now constructor.
  - apply same. destruct S as [W Kd Hl Hr Vl Vr]. constructor; cbn [s_lists s_rules s_lvar s_rvar]; auto. apply (upd_sim (fun x => V (VLRul x)) (RR R)); auto. apply Vr. lget I.
  - apply call_sim; auto. lget I.
Qed.
Lemma upd_free (f : nat -> option nat) y v (P : nat -> Prop) : ~ P y -> forall x, P x -> upd f y v x = f x.
Proof. intros N x X. apply upd_other. intros ->. now apply N. Qed.
Lemma l_sim_frame V R s t c : lsim V R s t -> (forall x, In x (l_vars c) -> ~ V x) -> (forall n m, R n m -> ~ l_changes t c m) -> lsim V R s (step t c).
Proof.
  intros S I D. pose proof (wf_step eqf dotnot pad t c (proj2 (ls_wf _ _ _ _ S))) as Wt. destruct S as [[Ws Wt0] Kd Hl Hr Vl Vr].
  assert (G : (forall n m, RL R n m -> nth_error (s_lists (step t c)) m = nth_error (s_lists t) m) -> (forall n m, RR R n m -> nth_error (s_rules (step t c)) m = nth_error (s_rules t) m) ->
    (forall x, V (VLst x) -> s_lvar (step t c) x = s_lvar t x) -> (forall x, V (VLRul x) -> s_rvar (step t c) x = s_rvar t x) -> lsim V R s (step t c)).
  { intros A B C E. constructor; auto; [now apply (hrel_frame _ _ _ (s_lists t))|now apply (hrel_frame _ _ _ (s_rules t))| |]; intros x X; [rewrite C by exact X|rewrite E by exact X]; auto. }
  assert (Ll : forall n m, RL R n m -> (m < List.length (s_lists t))%nat) by (intros n m K; now apply (hrel_lt _ _ _ _ _ _ Hl) in K).
  assert (Lr : forall n m, RR R n m -> (m < List.length (s_rules t))%nat) by (intros n m K; now apply (hrel_lt _ _ _ _ _ _ Hr) in K).
  destruct c as [x k|x y|x m|r x op|r x|r q|r m].
  - apply G; cbn [s_step s_lists s_rules s_lvar s_rvar]; auto.
    + intros n m K. apply TShare.nth_old. eauto.
    + apply (upd_free _ _ _ (fun x => V (VLst x))). lget I.
  - apply G; cbn [s_step s_lists s_rules s_lvar s_rvar]; auto. apply (upd_free _ _ _ (fun x => V (VLst x))). lget I.
  - apply G; cbn [s_step]; destruct (s_lvar t x) as [l|] eqn:E; auto; destruct (nth_error (s_lists t) l) as [c|]; auto.
    intros a b K. cbn [with_cell s_lists]. apply TShare.wr_other. intros ->. now apply (D _ _ K).
  - apply G; cbn [s_step]; destruct (s_lvar t x) as [l|] eqn:E; auto; try (destruct (nth_error (s_lists t) l) as [c|]; auto; destruct (con_rule pad (l_con c) op); auto);
      cbn [new_rule s_lists s_rules s_lvar s_rvar]; auto.
    + intros a b K. apply TShare.nth_old. eauto.
    + apply (upd_free _ _ _ (fun x => V (VLRul x))). lget I.
    + apply (upd_free _ _ _ (fun x => V (VLRul x))). lget I.
    + apply (upd_free _ _ _ (fun x => V (VLRul x))). lget I.
  - apply G; cbn [s_step]; destruct (s_rvar t r) as [l|] eqn:E; auto; destruct (s_lvar t x) as [l'|]; auto; destruct (nth_error (s_rules t) l) as [c|]; auto.
    intros a b K. cbn [with_rule s_rules]. apply TShare.wr_other. intros ->. now apply (D _ _ K).
  - apply G; cbn [s_step s_lists s_rules s_lvar s_rvar]; auto. apply (upd_free _ _ _ (fun x => V (VLRul x))). lget I.
  - destruct (call_frame t r m Wt0) as (F1 & F2 & F3 & F4). apply G; cbn [s_step].
    + intros a b K. apply F4; [eauto|]. intros Z Y. apply (D _ _ K). now split.
    + intros a b K. apply F3; [|eauto]. intros Y. now apply (D _ _ K).
    + intros a X. now rewrite F1.
    + intros a X. apply F2. intros ->. apply (I (VLRul r)); [now left|exact X].
Qed.
Lemma holds_sim V R s t r m : lsim V R s t -> V (VLRul r) -> holds t r = Some m -> exists n, RL R n m /\ holds s r = Some n.
Proof.
  intros S X. unfold holds. destruct (ls_rvar _ _ _ _ S r X) as [|n k K]; [discriminate|]. destruct (proj1 (ls_rules _ _ _ _ S) n k K) as (c & d & -> & -> & C).
  destruct C as [b co e f C]. cbn [rc_ex]. destruct C as [| |a l Kl]; try discriminate. intros [= <-]. eauto.
Qed.
Lemma l_sim_changes V R s t c m : lsim V R s t -> (forall x, In x (l_vars c) -> V x) -> l_changes t c m -> exists n, R n m /\ l_changes s c n.
Proof.
  intros S I. destruct c as [x k|x y|x mm|r x op|r x|r q|r mm]; cbn [l_changes]; try tauto; destruct m as [m|m]; try tauto.
  - intros E. assert (X : V (VLst x)) by lget I. pose proof (ls_lvar _ _ _ _ S x X) as P. rewrite E in P. inversion P as [|n m' K E1 E2]; subst. now exists (OLst n).
  - intros E. assert (X : V (VLRul r)) by lget I. pose proof (ls_rvar _ _ _ _ S r X) as P. rewrite E in P. inversion P as [|n m' K E1 E2]; subst. now exists (ORul n).
  - intros [Z E]. assert (X : V (VLRul r)) by lget I. destruct (holds_sim _ _ _ _ _ _ S X E) as (n & K & H). now exists (OLst n).
  - intros E. assert (X : V (VLRul r)) by lget I. pose proof (ls_rvar _ _ _ _ S r X) as P. rewrite E in P. inversion P as [|n m' K E1 E2]; subst. now exists (ORul n).
Qed.
Lemma l_sim_live V R s t n m : lsim V R s t -> R n m -> llive t m.
Proof.
  intros S K. destruct n as [n|n], m as [m|m]; cbn [llive].
  - now apply (hrel_lt _ _ _ _ n m (ls_lists _ _ _ _ S)).
  - destruct (proj1 (ls_kind _ _ _ _ S) n m K).
  - destruct (proj2 (ls_kind _ _ _ _ S) n m K).
  - now apply (hrel_lt _ _ _ _ n m (ls_rules _ _ _ _ S)).
Qed.
Lemma call_len s r m : (List.length (s_lists s) <= List.length (s_lists (rule_call s r m)))%nat /\ (List.length (s_rules s) <= List.length (s_rules (rule_call s r m)))%nat.
Proof.
  unfold rule_call. repeat match goal with |- context [match ?x with _ => _ end] => destruct x end; cbn [new_rule with_rule with_cell s_lists s_rules]; rewrite ?wr_length, ?app_length; cbn [List.length]; lia.
Qed.
Lemma l_live_step t c m : llive t m -> llive (step t c) m.
Proof.
  assert (G : (List.length (s_lists t) <= List.length (s_lists (step t c)))%nat /\ (List.length (s_rules t) <= List.length (s_rules (step t c)))%nat).
  { destruct c as [x k|x y|x mm|r x op|r x|r q|r mm]; cbn [s_step]; [| | | | | |apply call_len];
    repeat match goal with |- context [match ?x with _ => _ end] => destruct x end; cbn [new_rule with_rule with_cell s_lists s_rules]; rewrite ?wr_length, ?app_length; cbn [List.length]; lia. }
  destruct m as [m|m]; cbn [llive]; lia.
Qed.
Lemma l_wf_sim (V : lname -> Prop) s : wf s -> lsim V (fun n m => n = m /\ exists x, V x /\ l_leads s x n) s s.
Proof.
  intros W. pose proof W as (A & B & C). constructor; [now split|split; intros n m [X _]; discriminate X| | | |].
  - split; [|intros n m n' m' [[= <-] _] [[= <-] _]; tauto]. intros n m [[= <-] (x & _ & L)].
    assert (Lt : (n < List.length (s_lists s))%nat).
    { destruct x as [x|r]; cbn [l_leads] in L; [eauto|]. unfold holds in L. destruct (s_rvar s r) as [k|]; [|discriminate]. destruct (nth_error (s_rules s) k) as [c|] eqn:E; [|discriminate].
      destruct (rc_ex c) eqn:X; try discriminate. injection L as <-. eauto. }
    destruct (nth_error (s_lists s) n) as [d|] eqn:E; [now exists d, d|]. apply nth_error_None in E. lia.
  - split; [|intros n m n' m' [[= <-] _] [[= <-] _]; tauto]. intros n m [[= <-] (x & X & L)]. destruct x as [x|r]; cbn [l_leads] in L; [destruct L|].
    pose proof (B r n L) as Lt. destruct (nth_error (s_rules s) n) as [d|] eqn:E; [|apply nth_error_None in E; lia]. exists d, d. split; [reflexivity|]. split; [reflexivity|].
    destruct d as [tg co e]. constructor. destruct e as [|l|v]; constructor. split; [reflexivity|]. exists (VLRul r). split; [exact X|]. cbn [l_leads]. unfold holds. now rewrite L, E.
  - intros x X. destruct (s_lvar s x) as [n|] eqn:E; constructor. split; [reflexivity|]. now exists (VLst x).
  - intros x X. destruct (s_rvar s x) as [n|] eqn:E; constructor. split; [reflexivity|]. now exists (VLRul x).
Qed.
Lemma rule_sim V R s t r : lsim V R s t -> V (VLRul r) -> rule_of t r = rule_of s r /\ rule_text t r = rule_text s r.
Proof.
  intros S X. unfold rule_of, rule_text. destruct (ls_rvar _ _ _ _ S r X) as [|n m K]; [auto|]. destruct (proj1 (ls_rules _ _ _ _ S) n m K) as (c & d & -> & -> & C).
  rewrite (now_sim (RL R) _ _ c d (ls_lists _ _ _ _ S) C). destruct C. auto.
Qed.
Lemma list_sim V R s t x : lsim V R s t -> V (VLst x) -> list_of t x = list_of s x.
Proof.
  intros S X. unfold list_of. destruct (ls_lvar _ _ _ _ S x X) as [|n m K]; [auto|]. destruct (proj1 (ls_lists _ _ _ _ S) n m K) as (c & d & -> & -> & ->). reflexivity.
Qed.
End Prog.

(* every variable shows what it shows when its goroutine runs alone *)
Theorem C141_alone : forall eqf dotnot pad (owner : lname -> nat) p (q : @schedule sstmt), let s := s_run eqf dotnot pad s_start p in
  own_variables l_vars owner q -> (forall i, spares (s_step eqf dotnot pad) l_changes s (program_of i q) (common l_leads owner s)) ->
  let joint := s_run eqf dotnot pad s (map snd q) in
  forall i, let alone := s_run eqf dotnot pad s (program_of i q) in
  (forall x, owner (VLst x) = i -> list_of joint x = list_of alone x) /\
  (forall r, owner (VLRul r) = i -> rule_of joint r = rule_of alone r /\ rule_text joint r = rule_text alone r).
Proof.
  intros eqf dotnot pad owner p q s I Sp joint i alone.
  destruct (threads_start (s_step eqf dotnot pad) l_vars l_changes l_leads llive lsim wf (l_sim_step eqf dotnot pad) (l_sim_frame eqf dotnot pad) l_sim_changes l_sim_live (l_live_step eqf dotnot pad) l_wf_sim
    owner s q (wf_run eqf dotnot pad p s_start wf_start) I Sp i) as (R & S).
  split; [intros x X; now apply (list_sim _ _ _ _ x S)|intros r X; now apply (rule_sim _ _ _ _ r S)].
Qed.
(* two schedules of the same goroutines *)
Theorem C141_schedules : forall eqf dotnot pad (owner : lname -> nat) p (q q' : @schedule sstmt), let s := s_run eqf dotnot pad s_start p in
  own_variables l_vars owner q -> own_variables l_vars owner q' -> (forall i, spares (s_step eqf dotnot pad) l_changes s (program_of i q) (common l_leads owner s)) ->
  (forall i, program_of i q = program_of i q') ->
  (forall x, list_of (s_run eqf dotnot pad s (map snd q)) x = list_of (s_run eqf dotnot pad s (map snd q')) x) /\
  (forall r, rule_text (s_run eqf dotnot pad s (map snd q)) r = rule_text (s_run eqf dotnot pad s (map snd q')) r).
Proof.
  intros eqf dotnot pad owner p q q' s I I' Sp P.
  assert (Sp' : forall i, spares (s_step eqf dotnot pad) l_changes s (program_of i q') (common l_leads owner s)) by (intros i; rewrite <- P; apply Sp).
  split.
  - intros x. destruct (C141_alone eqf dotnot pad owner p q I Sp (owner (VLst x))) as [H _]. destruct (C141_alone eqf dotnot pad owner p q' I' Sp' (owner (VLst x))) as [H' _].
    fold s in H, H'. rewrite (H x eq_refl), (H' x eq_refl), P. reflexivity.
  - intros r. destruct (C141_alone eqf dotnot pad owner p q I Sp (owner (VLRul r))) as [_ H]. destruct (C141_alone eqf dotnot pad owner p q' I' Sp' (owner (VLRul r))) as [_ H'].
    fold s in H, H'. destruct (H r eq_refl) as [_ ->]. destruct (H' r eq_refl) as [_ ->]. now rewrite P.
Qed.

(* ---------------- concrete cases ---------------- *)
Open Scope string_scope.
(* a list both goroutines hold (variables 0 and 10): each makes a rule from it and works on
   lists and rules of its own *)
Definition lOwner (x : lname) : nat := match x with VLst x | VLRul x => if (x <? 10)%nat then 0 else 1 end.
Definition lProg : list sstmt := [SList 0 (two "cn=a" "cn=b"); SLCopy 10 0].
Definition lSched : @schedule sstmt :=
  [(0, SMake 0 0 Eq); (1, SMake 10 10 Ne); (1, SList 11 (CAttrs true [AT "cn"])); (0, SList 1 (two "cn=x" "cn=y"));
   (0, SMake 1 1 Eq); (1, SDo 11 (LAt (APush [MLists.AStr "sn"]))); (1, SMake 11 11 Ne); (0, SCall 1 (RBind (BQuoteStyle 0)));
   (1, SCall 10 (RBind (BParen true))); (0, SDo 1 (LDn (DPush [DStr "cn=z"])))]%nat.
Definition lSched' : @schedule sstmt := (filter (fun e => (fst e =? 1)%nat) lSched ++ filter (fun e => (fst e =? 0)%nat) lSched)%list.
Lemma l_owned (q : @schedule sstmt) : forallb (fun e => forallb (fun x => (lOwner x =? fst e)%nat) (l_vars (snd e))) q = true -> own_variables l_vars lOwner q.
Proof. intros H i c K x X. rewrite forallb_forall in H. specialize (H _ K). cbn [fst snd] in H. rewrite forallb_forall in H. now apply Nat.eqb_eq, H. Qed.
Lemma two_programs {S} (q : @schedule S) i : forallb (fun e => (fst e <? 2)%nat) q = true -> i <> 0%nat -> i <> 1%nat -> program_of i q = [].
Proof.
  intros H N0 N1. unfold program_of. induction q as [|e q IH]; [reflexivity|]. cbn [forallb] in H. apply andb_prop in H as [E H]. apply Nat.ltb_lt in E. cbn [filter].
  destruct (Nat.eqb_spec (fst e) i) as [X|X]; [lia|now apply IH].
Qed.
Example C141_witness : let s := s_run e0 d0 true s_start lProg in
  own_variables l_vars lOwner lSched /\ own_variables l_vars lOwner lSched' /\ common l_leads lOwner s (OLst 0) /\
  (forall i, spares (s_step e0 d0 true) l_changes s (program_of i lSched) (common l_leads lOwner s)) /\ (forall i, program_of i lSched = program_of i lSched') /\
  map (rule_text (s_run e0 d0 true s (map snd lSched))) [0; 10; 1; 11]%nat =
    ["userdn = " ++ quote "ldap:///cn=a || ldap:///cn=b"; "( userdn != " ++ quote "ldap:///cn=a || ldap:///cn=b" ++ " )";
     "userdn = " ++ quote "ldap:///cn=x" ++ " || " ++ quote "ldap:///cn=y" ++ " || " ++ quote "ldap:///cn=z"; "( targetattr != " ++ quote "cn || sn" ++ " )"].
Proof.
  intros s. split; [apply l_owned; reflexivity|]. split; [apply l_owned; reflexivity|]. split; [exists (VLst 0), (VLst 10); split; [discriminate|]; split; reflexivity|].
  assert (C : forall m, common l_leads lOwner s m -> m = OLst 0).
  { intros m (x & y & _ & L & _). destruct x as [x|r], m as [m|m]; cbn [l_leads] in L; try (vm_compute in L; now try destruct L); try discriminate L.
    cbn in L. unfold upd in L. cbn in L. destruct (x =? 10)%nat; [congruence|]. destruct (x =? 0)%nat; congruence. }
  split; [|split; [|vm_compute; reflexivity]].
  - intros i. destruct (Nat.eq_dec i 0) as [->|N0]; [|destruct (Nat.eq_dec i 1) as [->|N1]; [|rewrite (two_programs lSched i eq_refl N0 N1); exact I]].
    all: unfold program_of, lSched; cbn [filter fst map snd Nat.eqb]; cbn [spares l_changes]; repeat split; try tauto; intros m E M; apply C in M; subst m; cbn [l_changes] in E; match type of E with False => destruct E | _ /\ _ => destruct E as [E1 E]; first [discriminate E1|vm_compute in E; discriminate E] | _ => vm_compute in E; discriminate E end.
  - intros i. destruct (Nat.eq_dec i 0) as [->|N0]; [reflexivity|]. destruct (Nat.eq_dec i 1) as [->|N1]; [reflexivity|].
    now rewrite (two_programs lSched i eq_refl N0 N1), (two_programs lSched' i eq_refl N0 N1).
Qed.
(* rules of their own are not enough: SetQuoteStyle of a rule writes into the list, and so
   into the rules other goroutines made from it *)
Theorem C141_shared_refuted : ~ (forall eqf dotnot pad (owner : lname -> nat) p (q : @schedule sstmt) i r, let s := s_run eqf dotnot pad s_start p in
  own_variables l_vars owner q -> (forall n, ~ common l_leads owner s (ORul n)) -> (forall i c, In (i, c) q -> match c with SDo _ _ => False | _ => True end) -> owner (VLRul r) = i ->
  rule_text (s_run eqf dotnot pad s (map snd q)) r = rule_text (s_run eqf dotnot pad s (program_of i q)) r).
Proof.
  intros H. specialize (H e0 d0 true lOwner (lProg ++ [SMake 0 0 Eq; SMake 10 10 Ne])%list [(0, SCall 0 (RBind (BQuoteStyle 0)))]%nat 1%nat 10%nat). cbv zeta in H.
  match type of H with ?A -> ?B -> ?C -> ?D -> ?E => assert (X : E); [apply H|vm_compute in X; discriminate X] end.
  - apply l_owned. reflexivity.
  - intros n (x & y & N & A & B). destruct x as [x|x], y as [y|y]; cbn [l_leads] in A, B; try tauto. apply N. cbn in A, B. unfold upd in A, B. cbn in A, B.
    assert (X : (x =? 10)%nat = (y =? 10)%nat /\ ((x =? 10)%nat = true \/ (x =? 0)%nat = true /\ (y =? 0)%nat = true)).
    { destruct (x =? 10)%nat, (y =? 10)%nat; auto; destruct (x =? 0)%nat, (y =? 0)%nat; auto; try congruence; try discriminate. }
    destruct X as [X [Y|[Y Z]]]; [rewrite Y in X; symmetry in X; apply Nat.eqb_eq in X, Y; now subst|]. apply Nat.eqb_eq in Y, Z. now subst.
  - intros i c [K|[]]. injection K as <- <-. exact I.
  - reflexivity.
Qed.
Print Assumptions C141_alone.
Print Assumptions C141_schedules.
Print Assumptions C141_shared_refuted.
