(* C113-C115: filters, operations and lists of operations share their parts. *)
From Coq Require Import String Ascii List PeanoNat NArith ZArith Bool Lia.
From Verif Require Import GoStr GoStrFacts MMisc MLists MAttr MFilter MRule MMeth PAttr PLists PFilter TFilter MHeap THeap MFShare SFShare.
Import ListNotations.
Open Scope string_scope.

(* ---- references ---- *)
Definition okp {A} (h : list A) (p : ptr) : Prop := forall n, p = Some n -> (n < List.length h)%nat.
Record wfh (h : heaps) : Prop := MkWf {
  w_af : forall n a q, nth_error (h_af h) n = Some (a, q) -> okp (h_sf h) q;
  w_op : forall n o l m, nth_error (h_op h) n = Some (o, l) -> In m l -> (m < List.length (h_af h))%nat;
  w_ops : forall n d l m, nth_error (h_ops h) n = Some (d, l) -> In m l -> (m < List.length (h_op h))%nat }.
Definition keeps {A} (h h' : list A) (P : nat -> Prop) : Prop :=
  (List.length h <= List.length h')%nat /\ forall n, (n < List.length h)%nat -> P n -> nth_error h' n = nth_error h n.
Definition agree (h h' : heaps) (w : option cell) : Prop :=
  keeps (h_sf h) (h_sf h') (fun n => w <> Some (CSf n)) /\ keeps (h_af h) (h_af h') (fun n => w <> Some (CAf n)) /\
  keeps (h_op h) (h_op h') (fun n => w <> Some (COp n)) /\ keeps (h_ops h) (h_ops h') (fun n => w <> Some (COps n)).

Lemma keeps_refl {A} (h : list A) P : keeps h h P.
Proof. split; auto. Qed.
Lemma keeps_trans {A} (h h1 h2 : list A) (P : nat -> Prop) (Q : nat -> Prop) : (forall n, Q n) -> keeps h h1 Q -> keeps h1 h2 P -> keeps h h2 P.
Proof. intros T [L K] [L' K']. split; [lia|]. intros n N H. rewrite K' by (auto; lia). auto. Qed.
Lemma keeps_add {A} (h : list A) c P : keeps h (h ++ [c])%list P.
Proof. split; [rewrite app_length; lia|]. intros n N _. now rewrite nth_error_app1. Qed.
Lemma keeps_wr {A} (h : list A) n c (P : nat -> Prop) : ~ P n -> keeps h (wr h n c) P.
Proof.
  intros H. split; [now rewrite wr_len|]. intros m _ M. assert (m <> n) by (intros ->; tauto). exact (wr_other h n m c H0).
Qed.
Lemma agree_refl h w : agree h h w.
Proof. repeat split; auto. Qed.
Lemma agree_trans h h1 h2 w : agree h h1 None -> agree h1 h2 w -> agree h h2 w.
Proof.
  intros (A & B & C & D) (A' & B' & C' & D').
  split; [|split; [|split]]; (eapply keeps_trans; [|eassumption|eassumption]); intros n; discriminate.
Qed.
Lemma okp_le {A} (h h' : list A) p : okp h p -> (List.length h <= List.length h')%nat -> okp h' p.
Proof. intros H L n E. specialize (H n E). lia. Qed.
Lemma okp_none {A} (h : list A) : okp h None.
Proof. intros n. discriminate. Qed.
Lemma okp_last {A} (h : list A) c : okp (h ++ [c])%list (Some (List.length h)).
Proof. intros n [= <-]. rewrite app_length. cbn. lia. Qed.
Lemma nth_add {A} (h : list A) c n x : nth_error (h ++ [c])%list n = Some x -> nth_error h n = Some x \/ (n = List.length h /\ x = c).
Proof.
  intros E. destruct (Nat.lt_ge_cases n (List.length h)) as [L|L].
  - rewrite nth_error_app1 in E by exact L. auto.
  - rewrite nth_error_app2 in E by exact L. destruct (n - List.length h)%nat as [|k] eqn:K.
    + right. injection E as <-. split; [lia|reflexivity].
    + destruct k; discriminate E.
Qed.
Lemma nth_wr {A} (h : list A) l c n x : nth_error (wr h l c) n = Some x -> nth_error h n = Some x \/ (n = l /\ x = c).
Proof. apply wr_nth. Qed.

(* ---- values depend on their parts only ---- *)
Definition apart (P : cell -> Prop) (w : option cell) : Prop := forall c, w = Some c -> ~ P c.
Lemma sf_keep h h' w p : agree h h' w -> okp (h_sf h) p -> apart (sf_part p) w -> sf_at h' p = sf_at h p.
Proof.
  intros [[L K] _] O N. destruct p as [n|]; [|reflexivity]. apply (K n (O n eq_refl)). intros E. apply (N _ E). now exists n.
Qed.
Lemma af_keep h h' w p : wfh h -> agree h h' w -> okp (h_af h) p -> apart (af_part h p) w -> af_at h' p = af_at h p.
Proof.
  intros Wf G O N. destruct p as [n|]; [|reflexivity]. assert (G0 := G). destruct G0 as (_ & [L K] & _).
  unfold af_at, rd. rewrite K; [|exact (O n eq_refl)|intros E; apply (N _ E); exists n; auto].
  destruct (nth_error (h_af h) n) as [[a q]|] eqn:E; [|reflexivity].
  rewrite (sf_keep h h' w q G); [reflexivity|exact (w_af h Wf _ _ _ E)|].
  intros c C H. apply (N _ C). exists n. split; [reflexivity|]. right. now exists a, q.
Qed.
Lemma op_keep h h' w p : wfh h -> agree h h' w -> okp (h_op h) p -> apart (op_part h p) w -> op_at h' p = op_at h p.
Proof.
  intros Wf G O N. destruct p as [n|]; [|reflexivity]. assert (G0 := G). destruct G0 as (_ & _ & [L K] & _).
  unfold op_at, rd. rewrite K; [|exact (O n eq_refl)|intros E; apply (N _ E); exists n; auto].
  destruct (nth_error (h_op h) n) as [[o l]|] eqn:E; [|reflexivity]. f_equal. f_equal. apply map_ext_in. intros m M.
  apply (af_keep h h' w (Some m) Wf G).
  - intros k [= <-]. exact (w_op h Wf _ _ _ _ E M).
  - intros c C H. apply (N _ C). exists n. split; [reflexivity|]. right. now exists o, l, m.
Qed.
Lemma ops_keep h h' w p : wfh h -> agree h h' w -> okp (h_ops h) p -> apart (ops_part h p) w -> ops_at h' p = ops_at h p.
Proof.
  intros Wf G O N. destruct p as [n|]; [|reflexivity]. assert (G0 := G). destruct G0 as (_ & _ & _ & [L K]).
  unfold ops_at, rd. rewrite K; [|exact (O n eq_refl)|intros E; apply (N _ E); exists n; auto].
  destruct (nth_error (h_ops h) n) as [[o l]|] eqn:E; [|reflexivity]. f_equal. f_equal. apply map_ext_in. intros m M.
  unfold op_val. rewrite (op_keep h h' w (Some m) Wf G); [reflexivity| |].
  - intros k [= <-]. exact (w_ops h Wf _ _ _ _ E M).
  - intros c C H. apply (N _ C). exists n. split; [reflexivity|]. right. now exists o, l, m.
Qed.
Lemma apart_none P : apart P None.
Proof. intros c. discriminate. Qed.
#[local] Hint Resolve apart_none okp_none agree_refl keeps_refl : core.
Lemma af_grow h h' p : wfh h -> agree h h' None -> okp (h_af h) p -> af_at h' p = af_at h p.
Proof. intros. eapply af_keep; eauto. Qed.
Lemma sf_grow h h' p : agree h h' None -> okp (h_sf h) p -> sf_at h' p = sf_at h p.
Proof. intros. eapply sf_keep; eauto. Qed.
Lemma op_grow h h' p : wfh h -> agree h h' None -> okp (h_op h) p -> op_at h' p = op_at h p.
Proof. intros. eapply op_keep; eauto. Qed.

(* ---- new cells ---- *)
Definition all_ok {A} (h : list A) (l : list nat) : Prop := forall m, In m l -> (m < List.length h)%nat.
Lemma add_sf_ok h c : wfh h -> wfh (add_sf h c) /\ agree h (add_sf h c) None.
Proof.
  intros [A B C]. split.
  - constructor; cbn [add_sf h_sf h_af h_op h_ops]; eauto. intros n a q E. eapply okp_le; [eauto|rewrite app_length; lia].
  - split; [|split; [|split]]; cbn [add_sf h_sf h_af h_op h_ops]; auto. apply keeps_add.
Qed.
Lemma add_af_ok h c : wfh h -> okp (h_sf h) (snd c) -> wfh (add_af h c) /\ agree h (add_af h c) None.
Proof.
  intros [A B C] K. split.
  - constructor; cbn [add_af h_sf h_af h_op h_ops]; eauto.
    + intros n a q E. apply nth_add in E as [E|[_ E]]; [eauto|]. now rewrite <- E in K.
    + intros n o l m E I. rewrite app_length. specialize (B n o l m E I). lia.
  - split; [|split; [|split]]; cbn [add_af h_sf h_af h_op h_ops]; auto. apply keeps_add.
Qed.
Lemma add_op_ok h c : wfh h -> all_ok (h_af h) (snd c) -> wfh (add_op h c) /\ agree h (add_op h c) None.
Proof.
  intros [A B C] K. split.
  - constructor; cbn [add_op h_sf h_af h_op h_ops]; eauto.
    + intros n o l m E I. apply nth_add in E as [E|[_ E]]; [eauto|]. rewrite <- E in K. auto.
    + intros n d l m E I. rewrite app_length. specialize (C n d l m E I). lia.
  - split; [|split; [|split]]; cbn [add_op h_sf h_af h_op h_ops]; auto. apply keeps_add.
Qed.
Lemma add_ops_ok h c : wfh h -> all_ok (h_op h) (snd c) -> wfh (add_ops h c) /\ agree h (add_ops h c) None.
Proof.
  intros [A B C] K. split.
  - constructor; cbn [add_ops h_sf h_af h_op h_ops]; eauto.
    intros n o l m E I. apply nth_add in E as [E|[_ E]]; [eauto|]. rewrite <- E in K. auto.
  - split; [|split; [|split]]; cbn [add_ops h_sf h_af h_op h_ops]; auto. apply keeps_add.
Qed.
Lemma agree_len h h' w : agree h h' w ->
  (List.length (h_sf h) <= List.length (h_sf h'))%nat /\ (List.length (h_af h) <= List.length (h_af h'))%nat /\
  (List.length (h_op h) <= List.length (h_op h'))%nat /\ (List.length (h_ops h) <= List.length (h_ops h'))%nat.
Proof. intros ([A _] & [B _] & [C _] & [D _]). auto. Qed.
Lemma set_sf_ok h n c : wfh h -> wfh (set_sf h n c) /\ agree h (set_sf h n c) (Some (CSf n)).
Proof.
  intros [A B C]. split.
  - constructor; cbn [set_sf h_sf h_af h_op h_ops]; eauto. intros m a q E k K. rewrite wr_len. now apply (A m a q E).
  - split; [|split; [|split]]; cbn [set_sf h_sf h_af h_op h_ops]; auto. apply keeps_wr. intros H. now apply H.
Qed.
Lemma set_af_ok h n c : wfh h -> okp (h_sf h) (snd c) -> wfh (set_af h n c) /\ agree h (set_af h n c) (Some (CAf n)).
Proof.
  intros [A B C] K. split.
  - constructor; cbn [set_af h_sf h_af h_op h_ops]; rewrite ?wr_len; eauto.
    intros m a q E. apply nth_wr in E as [E|[_ E]]; [eauto|]. now rewrite <- E in K.
  - split; [|split; [|split]]; cbn [set_af h_sf h_af h_op h_ops]; auto. apply keeps_wr. intros H. now apply H.
Qed.
Lemma set_op_ok h n c : wfh h -> all_ok (h_af h) (snd c) -> wfh (set_op h n c) /\ agree h (set_op h n c) (Some (COp n)).
Proof.
  intros [A B C] K. split.
  - constructor; cbn [set_op h_sf h_af h_op h_ops]; rewrite ?wr_len; eauto.
    intros m o l k E I. apply nth_wr in E as [E|[_ E]]; [eauto|]. rewrite <- E in K. auto.
  - split; [|split; [|split]]; cbn [set_op h_sf h_af h_op h_ops]; auto. apply keeps_wr. intros H. now apply H.
Qed.
Lemma set_ops_ok h n c : wfh h -> all_ok (h_op h) (snd c) -> wfh (set_ops h n c) /\ agree h (set_ops h n c) (Some (COps n)).
Proof.
  intros [A B C] K. split.
  - constructor; cbn [set_ops h_sf h_af h_op h_ops]; rewrite ?wr_len; eauto.
    intros m o l k E I. apply nth_wr in E as [E|[_ E]]; [eauto|]. rewrite <- E in K. auto.
  - split; [|split; [|split]]; cbn [set_ops h_sf h_af h_op h_ops]; auto. apply keeps_wr. intros H. now apply H.
Qed.

(* the steps below keep the lists of the other kinds *)
Lemma new_sf_ok h v h1 p : new_sf h v = (h1, p) -> wfh h ->
  wfh h1 /\ agree h h1 None /\ okp (h_sf h1) p /\ sf_at h1 p = v /\ h_af h1 = h_af h /\ h_op h1 = h_op h /\ h_ops h1 = h_ops h.
Proof.
  intros E Wf. destruct v as [s|]; injection E as <- <-.
  - destruct (add_sf_ok h s Wf) as [A B]. repeat (split; [solve [auto]|]). split; [apply okp_last|].
    split; [apply rd_last|]. auto.
  - repeat (split; [solve [auto]|]). auto.
Qed.
Lemma new_af_ok h v h1 p : new_af h v = (h1, p) -> wfh h ->
  wfh h1 /\ agree h h1 None /\ okp (h_af h1) p /\ af_at h1 p = v /\ h_op h1 = h_op h /\ h_ops h1 = h_ops h /\
  (v <> None -> p <> None).
Proof.
  intros E Wf. destruct v as [[a f]|].
  - cbn [new_af] in E. destruct (new_sf h f) as [h2 q] eqn:N. injection E as <- <-.
    destruct (new_sf_ok _ _ _ _ N Wf) as (A & B & C & D & E & F & G).
    destruct (add_af_ok h2 (a, q) A C) as [A' B']. split; [exact A'|]. split; [now apply (agree_trans h h2)|].
    split; [apply okp_last|]. split.
    + unfold af_at. cbn [add_af h_af]. rewrite rd_last. rewrite (sf_grow h2) by auto. now rewrite D.
    + split; [exact F|]. split; [exact G|]. discriminate.
  - injection E as <- <-. repeat (split; [solve [auto]|]). auto.
Qed.
Lemma new_afs_ok : forall l h h1 r, new_afs h l = (h1, r) -> wfh h ->
  wfh h1 /\ agree h h1 None /\ all_ok (h_af h1) r /\ h_op h1 = h_op h /\ h_ops h1 = h_ops h /\
  ((forall f, In f l -> f <> None) -> map (fun n => af_at h1 (Some n)) r = l).
Proof.
  induction l as [|v l IH]; intros h h1 r E Wf; cbn [new_afs] in E.
  - injection E as <- <-. repeat (split; [solve [auto|intros ? []]|]). auto.
  - destruct (new_af h v) as [h2 p] eqn:N. destruct (new_afs h2 l) as [h3 r2] eqn:N2. injection E as <- <-.
    destruct (new_af_ok _ _ _ _ N Wf) as (A & B & C & D & F & G & H).
    destruct (IH _ _ _ N2 A) as (A' & B' & C' & F' & G' & H').
    split; [exact A'|]. split; [now apply (agree_trans h h2)|]. destruct (agree_len _ _ _ B') as (_ & LA & _). split.
    + destruct p as [n|]; [|exact C']. intros m [<-|I]; [|auto]. specialize (C n eq_refl). lia.
    + split; [congruence|]. split; [congruence|]. intros S. destruct p as [n|].
      * cbn [map]. rewrite H' by (intros f I; apply S; now right). f_equal. rewrite <- D. now apply af_grow.
      * exfalso. apply H; [|reflexivity]. apply S. now left.
Qed.
Lemma new_op_ok h v h1 n : new_op h v = (h1, n) -> wfh h -> (forall f, In f (afo_mem v) -> f <> None) ->
  wfh h1 /\ agree h h1 None /\ (n < List.length (h_op h1))%nat /\ op_at h1 (Some n) = Some v /\ h_ops h1 = h_ops h /\
  (forall m, (m < List.length (h_op h1))%nat -> (m < List.length (h_op h))%nat \/ m = n).
Proof.
  unfold new_op. intros E Wf S. destruct (new_afs h (afo_mem v)) as [h2 l] eqn:N. injection E as <- <-.
  destruct (new_afs_ok _ _ _ _ N Wf) as (A & B & C & F & G & H).
  destruct (add_op_ok h2 (afo_op v, l) A C) as [A' B']. split; [exact A'|]. split; [now apply (agree_trans h h2)|].
  split; [cbn [add_op h_op]; rewrite app_length; cbn; lia|]. split.
  - unfold op_at. cbn [add_op h_op]. rewrite rd_last. f_equal. destruct v as [o ml]. cbn [afo_op afo_mem] in *. f_equal.
    rewrite <- (H S). apply map_ext_in. intros m M. apply af_grow; auto. intros k [= <-]. auto.
  - split; [exact G|]. intros m M. cbn [add_op h_op] in M. rewrite app_length, F in M. cbn in M. rewrite F. lia.
Qed.

(* ---- loops ---- *)
Section Loops.
Variables (sv av ov : nat -> ptr).
Definition a_val (h : heaps) (x : aarg) : farg :=
  match x with RStr t => FStr t | RAT a => FAT a | RSF y => FSF (sf_at h (sv y)) | ROther => FOther end.
Definition o_val (h : heaps) (x : oparg') : aoarg :=
  match x with QStr t => AOStr t | QOp n => AOOp n | QAF a => AOFilter (af_at h (av a)) | QOther => AOOther end.
Definition l_val (h : heaps) (x : opsarg) : asarg :=
  match x with
  | UStr t => ASStr t
  | UOp o => match op_at h (ov o) with Some v => ASOp v | None => ASOther end
  | UOther => ASOther
  end.
Definition af_cell (h : heaps) (c : attype * ptr) : atf := (fst c, sf_at h (snd c)).
Definition op_cell (h : heaps) (c : N * list nat) : afo := MkAFO (fst c) (map (fun n => af_at h (Some n)) (snd c)).
Definition ops_cell (h : heaps) (c : ascii * list nat) : afos := MkAFOs (fst c) (map (op_val h) (snd c)).

Lemma aset_ok : forall xs h c h1 c1, aset sv h c xs = (h1, c1) -> wfh h -> (forall x, okp (h_sf h) (sv x)) -> okp (h_sf h) (snd c) ->
  wfh h1 /\ agree h h1 None /\ okp (h_sf h1) (snd c1) /\ h_af h1 = h_af h /\ h_op h1 = h_op h /\ h_ops h1 = h_ops h /\
  af_cell h1 c1 = atf_set (af_cell h c) (map (a_val h) xs).
Proof.
  unfold aset. induction xs as [|x xs IH]; intros h c h1 c1 E Wf V C; cbn [fold_left] in E.
  - injection E as <- <-. repeat (split; [solve [cbn [fst snd]; auto]|]). reflexivity.
  - destruct (aset1 sv (h, c) x) as [h2 c2] eqn:S.
    assert (X : wfh h2 /\ agree h h2 None /\ okp (h_sf h2) (snd c2) /\ h_af h2 = h_af h /\ h_op h2 = h_op h /\ h_ops h2 = h_ops h /\
      af_cell h2 c2 = atf_set1 (af_cell h c) (a_val h x)).
    { destruct x as [s|a|y|]; cbn [aset1] in S.
      - cbn [a_val atf_set1]. destruct (isIdentifier s).
        + injection S as <- <-. repeat (split; [solve [cbn [fst snd]; auto]|]). reflexivity.
        + destruct (new_sf h (Filter [s])) as [h3 q] eqn:N. injection S as <- <-.
          destruct (new_sf_ok _ _ _ _ N Wf) as (A & B & D & E' & F & G & H).
          repeat (split; [solve [cbn [fst snd]; auto]|]). unfold af_cell. cbn [fst snd]. now rewrite E'.
      - injection S as <- <-. repeat (split; [solve [cbn [fst snd]; auto]|]). reflexivity.
      - injection S as <- <-. repeat (split; [solve [cbn [fst snd]; auto]|]). reflexivity.
      - injection S as <- <-. repeat (split; [solve [cbn [fst snd]; auto]|]). reflexivity. }
    destruct X as (A & B & D & F & G & H & I). destruct (agree_len _ _ _ B) as (LS & _).
    destruct (IH h2 c2 h1 c1 E A) as (A' & B' & D' & F' & G' & H' & I'); [intros y; eapply okp_le; eauto|exact D|].
    split; [exact A'|]. split; [now apply (agree_trans h h2)|]. split; [exact D'|].
    split; [congruence|]. split; [congruence|]. split; [congruence|].
    rewrite I', I. unfold atf_set. cbn [map fold_left]. f_equal. apply map_ext. intros z.
    destruct z as [s|a|y|]; cbn [a_val]; try reflexivity. f_equal. apply sf_grow; auto.
Qed.
Lemma opush_ref_ok h l p : okp (h_af h) p -> all_ok (h_af h) l ->
  all_ok (h_af h) (opush_ref h l p) /\
  map (fun n => af_at h (Some n)) (opush_ref h l p) = push1 afo_policy (map (fun n => af_at h (Some n)) l) (af_at h p).
Proof.
  intros P L. destruct p as [n|]; cbn [opush_ref].
  - unfold push1. destruct (afo_policy _ _).
    + split; [|now rewrite map_app]. intros m M. apply in_app_iff in M as [M|[<-|[]]]; auto.
    + now split.
  - split; [exact L|]. unfold push1, afo_policy. now destruct (afo_contains _ _).
Qed.
Lemma opush_ok : forall xs h c h1 c1, opush av h c xs = (h1, c1) -> wfh h -> (forall x, okp (h_af h) (av x)) -> all_ok (h_af h) (snd c) ->
  wfh h1 /\ agree h h1 None /\ all_ok (h_af h1) (snd c1) /\ h_op h1 = h_op h /\ h_ops h1 = h_ops h /\
  op_cell h1 c1 = afo_push (op_cell h c) (map (o_val h) xs).
Proof.
  unfold opush. induction xs as [|x xs IH]; intros h c h1 c1 E Wf V C; cbn [fold_left] in E.
  - injection E as <- <-. repeat (split; [solve [cbn [fst snd]; auto]|]). reflexivity.
  - destruct (opush1 av (h, c) x) as [h2 c2] eqn:S.
    assert (X : wfh h2 /\ agree h h2 None /\ all_ok (h_af h2) (snd c2) /\ h_op h2 = h_op h /\ h_ops h2 = h_ops h /\
      op_cell h2 c2 = afo_push1 (op_cell h c) (o_val h x)).
    { destruct c as [o l]. destruct x as [s|k|a|]; cbn [opush1] in S; cbn [o_val afo_push1]; cbn [snd] in C.
      - destruct (parseAttributeFilter s) as [v|]; [|injection S as <- <-; now repeat (split; [solve [cbn [fst snd]; auto]|])].
        destruct (new_af h v) as [h3 p] eqn:N. injection S as <- <-.
        destruct (new_af_ok _ _ _ _ N Wf) as (A & B & D & F & G & H & _). destruct (agree_len _ _ _ B) as (_ & LA & _).
        destruct (opush_ref_ok h3 l p D) as [P Q]; [intros m M; specialize (C m M); lia|].
        repeat (split; [solve [cbn [fst snd]; auto]|]). unfold op_cell. cbn [fst snd afo_op afo_mem]. rewrite Q. f_equal. rewrite F. f_equal. apply map_ext_in.
        intros m M. apply af_grow; auto. intros k [= <-]. auto.
      - injection S as <- <-. now repeat (split; [solve [cbn [fst snd]; auto]|]).
      - injection S as <- <-. destruct (opush_ref_ok h l (av a) (V a) C) as [P Q]. repeat (split; [solve [cbn [fst snd]; auto]|]).
        unfold op_cell. cbn [fst snd afo_op afo_mem]. now rewrite Q.
      - injection S as <- <-. now repeat (split; [solve [cbn [fst snd]; auto]|]). }
    destruct X as (A & B & D & G & H & I). destruct (agree_len _ _ _ B) as (_ & LS & _).
    destruct (IH h2 c2 h1 c1 E A) as (A' & B' & D' & G' & H' & I'); [intros y; eapply okp_le; eauto|exact D|].
    split; [exact A'|]. split; [now apply (agree_trans h h2)|]. split; [exact D'|].
    split; [congruence|]. split; [congruence|].
    rewrite I', I. unfold afo_push. cbn [map fold_left]. f_equal. apply map_ext. intros z.
    destruct z as [s|a|y|]; cbn [o_val]; try reflexivity. f_equal. apply af_grow; auto.
Qed.
End Loops.
(* ---- what Push accepts ---- *)
Definition goodl (l : list afilter) : Prop :=
  (forall f, In f l -> exists a t, f = Some (Some a, Some t) /\ a <> "" /\ t <> "") /\ NoDup (map af_string l).
Definition goodll (l : list afo) : Prop := (forall o, In o l -> afo_mem o <> []) /\ NoDup (map afo_string l).
Lemma valid_parts f : af_valid f = true -> exists a t, f = Some (Some a, Some t) /\ a <> "" /\ t <> "".
Proof.
  destruct f as [[[a|] [t|]]|]; unfold af_valid; cbn; try discriminate; intros V.
  - exists a, t. destruct a, t; cbn in *; try discriminate; repeat split; discriminate.
  - now destruct (String.length a =? 0)%nat.
  - now destruct (String.length t =? 0)%nat.
Qed.
Lemma goodl_push l f : goodl l -> goodl (push1 afo_policy l f).
Proof.
  intros [A B]. unfold push1, afo_policy. destruct (afo_contains l f) eqn:C; [now split|]. destruct (af_valid f) eqn:V; [|now split].
  split.
  - intros g Hg. apply in_app_or in Hg as [Hg|[<-|[]]]; [now apply A|now apply valid_parts].
  - rewrite map_app. cbn [map]. apply NoDup_snoc; [exact B|]. intros Hin. apply in_map_iff in Hin as (g & Eg & Hg).
    unfold afo_contains in C. rewrite existsb_false in C. specialize (C g Hg). rewrite Eg, String.eqb_refl in C. discriminate.
Qed.
Lemma good_push : forall xs r, good_op r -> good_op (afo_push r xs).
Proof.
  unfold afo_push. induction xs as [|x xs IH]; intros r H; [exact H|]. cbn [fold_left]. apply IH.
  destruct x as [s|n|f|]; cbn [afo_push1]; [destruct (parseAttributeFilter s)| | |]; try exact H; unfold good_op; cbn [afo_mem];
    try (apply goodl_push; exact H); exact H.
Qed.
Lemma good_new op : good_op (MkAFO op []).
Proof. split; [easy|constructor]. Qed.
Lemma parse_items_good : forall seq r v, parse_items seq r = Some v -> good_op r -> good_op v.
Proof.
  induction seq as [|x seq IH]; intros r v E H; cbn [parse_items] in E; [now injection E as <-|].
  destruct (parseAttributeFilter (trim_space x)) as [f|]; [|discriminate]. apply (IH _ _ E). now apply good_push.
Qed.
Lemma parseAFO_good s v : parseAFO s = Some v -> good_op v.
Proof.
  unfold parseAFO. destruct (_ <? _)%nat; [discriminate|]. destruct (parsePreamble _) as [[aop val]|]; [|discriminate].
  intros E. apply (parse_items_good _ _ _ E). apply good_new.
Qed.
Lemma good_some v f : good_op v -> In f (afo_mem v) -> f <> None.
Proof. intros [A _] I. destruct (A f I) as (a & t & -> & _). discriminate. Qed.
Lemma goodll_push l o : goodll l -> goodll (push1 afos_policy l o).
Proof.
  intros [A B]. unfold push1, afos_policy. destruct (afos_contains l o) eqn:C; [now split|]. destruct (0 <? List.length (afo_mem o))%nat eqn:V; [|now split].
  split.
  - intros g Hg. apply in_app_or in Hg as [Hg|[<-|[]]]; [now apply A|]. intros E. rewrite E in V. discriminate.
  - rewrite map_app. cbn [map]. apply NoDup_snoc; [exact B|]. intros Hin. apply in_map_iff in Hin as (g & Eg & Hg).
    unfold afos_contains in C. rewrite existsb_false in C. specialize (C g Hg). rewrite Eg, String.eqb_refl in C. discriminate.
Qed.
Lemma good_lpush : forall xs r, good_ops r -> good_ops (afos_push r xs).
Proof.
  unfold afos_push. induction xs as [|x xs IH]; intros r H; [exact H|]. cbn [fold_left]. apply IH.
  destruct x as [s|o|]; cbn [afos_push1]; [destruct (parseAFO s) as [o|]; [destruct (_ <? _)%nat|]| |]; try exact H; unfold good_ops; cbn [afos_mem];
    apply goodll_push; exact H.
Qed.

(* ---- Push of operations ---- *)
Lemma op_val_grow h h' m : wfh h -> agree h h' None -> (m < List.length (h_op h))%nat -> op_val h' m = op_val h m.
Proof. intros A B C. unfold op_val. rewrite (op_grow h h'); auto. intros k [= <-]. exact C. Qed.
Lemma op_at_val h n : (n < List.length (h_op h))%nat -> op_at h (Some n) = Some (op_val h n).
Proof.
  intros L. unfold op_val, op_at, rd. destruct (nth_error (h_op h) n) as [[o l]|] eqn:E; [reflexivity|].
  apply nth_error_None in E. lia.
Qed.
Lemma lpush_ref_ok h l n : (n < List.length (h_op h))%nat -> all_ok (h_op h) l ->
  all_ok (h_op h) (lpush_ref h l (Some n)) /\
  map (op_val h) (lpush_ref h l (Some n)) = push1 afos_policy (map (op_val h) l) (op_val h n).
Proof.
  intros P L. cbn [lpush_ref]. unfold push1. destruct (afos_policy _ _).
  - split; [|now rewrite map_app]. intros m M. apply in_app_iff in M as [M|[<-|[]]]; auto.
  - now split.
Qed.
Lemma lpush_ok ov : forall xs h c h1 c1, lpush ov h c xs = (h1, c1) -> wfh h -> (forall x, okp (h_op h) (ov x)) -> all_ok (h_op h) (snd c) ->
  wfh h1 /\ agree h h1 None /\ all_ok (h_op h1) (snd c1) /\ h_ops h1 = h_ops h /\
  ops_cell h1 c1 = afos_push (ops_cell h c) (map (l_val ov h) xs) /\
  (forall m, (m < List.length (h_op h1))%nat -> (m < List.length (h_op h))%nat \/ good_op (op_val h1 m)).
Proof.
  unfold lpush. induction xs as [|x xs IH]; intros h c h1 c1 E Wf V C; cbn [fold_left] in E.
  - injection E as <- <-. repeat (split; [solve [auto]|]). auto.
  - destruct (lpush1 ov (h, c) x) as [h2 c2] eqn:S.
    assert (X : wfh h2 /\ agree h h2 None /\ all_ok (h_op h2) (snd c2) /\ h_ops h2 = h_ops h /\
      ops_cell h2 c2 = afos_push1 (ops_cell h c) (l_val ov h x) /\
      (forall m, (m < List.length (h_op h2))%nat -> (m < List.length (h_op h))%nat \/ good_op (op_val h2 m))).
    { destruct c as [d l]. cbn [snd] in C. destruct x as [s|o|]; cbn [lpush1] in S; cbn [l_val].
      - cbn [afos_push1]. destruct (parseAFO s) as [v|] eqn:PA; [|apply pair_equal_spec in S as [<- <-]; solve [repeat (split; [solve [cbn [snd]; auto]|]); auto]].
        destruct (_ <? _)%nat; [|apply pair_equal_spec in S as [<- <-]; solve [repeat (split; [solve [cbn [snd]; auto]|]); auto]].
        destruct (new_op h v) as [h3 n] eqn:N. apply pair_equal_spec in S as [<- <-].
        destruct (new_op_ok _ _ _ _ N Wf) as (A & B & D & F & G & NW).
        { intros f I. exact (good_some v f (parseAFO_good _ _ PA) I). }
        destruct (agree_len _ _ _ B) as (_ & _ & LO & _).
        assert (C' : all_ok (h_op h3) l) by (intros m M; specialize (C m M); lia).
        destruct (lpush_ref_ok h3 l n D C') as [P Q].
        repeat (split; [solve [cbn [fst snd]; auto]|]). unfold ops_cell. cbn [fst snd afos_delim afos_mem]. split.
        { rewrite Q. f_equal. replace (op_val h3 n) with v by (unfold op_val; now rewrite F). f_equal. apply map_ext_in.
          intros m M. apply op_val_grow; auto. }
        intros m M. destruct (NW m M) as [M'| ->]; [now left|]. right. replace (op_val h3 n) with v by (unfold op_val; now rewrite F). exact (parseAFO_good _ _ PA).
      - destruct (ov o) as [n|] eqn:O.
        + apply pair_equal_spec in S as [<- <-]. assert (D : (n < List.length (h_op h))%nat) by exact (V o n O).
          destruct (lpush_ref_ok h l n D C) as [P Q]. repeat (split; [solve [cbn [fst snd]; auto]|]).
          rewrite (op_at_val h n D). cbn [afos_push1]. unfold ops_cell. cbn [fst snd afos_delim afos_mem]. split; [now rewrite Q|auto].
        + apply pair_equal_spec in S as [<- <-]. repeat (split; [solve [cbn [fst snd lpush_ref]; auto]|]). auto.
      - apply pair_equal_spec in S as [<- <-]. solve [repeat (split; [solve [cbn [snd]; auto]|]); auto]. }
    destruct X as (A & B & D & H & I & NW). destruct (agree_len _ _ _ B) as (_ & _ & LS & _).
    destruct (IH h2 c2 h1 c1 E A) as (A' & B' & D' & H' & I' & NW'); [intros y; eapply okp_le; eauto|exact D|].
    split; [exact A'|]. split; [now apply (agree_trans h h2)|]. split; [exact D'|].
    split; [congruence|].
    assert (NN : forall m, (m < List.length (h_op h1))%nat -> (m < List.length (h_op h))%nat \/ good_op (op_val h1 m)).
    { intros m M. destruct (NW' m M) as [M'|G]; [|now right]. destruct (NW m M') as [M2|G]; [now left|]. right.
      now rewrite (op_val_grow h2 h1). }
    split; [|exact NN].
    rewrite I', I. unfold afos_push. cbn [map fold_left]. f_equal. apply map_ext. intros z.
    destruct z as [s|y|]; cbn [l_val]; try reflexivity. rewrite (op_grow h h2); auto.
Qed.

(* ---- statements ---- *)
Record wff (s : fstate) : Prop := MkWff {
  wf_h : wfh (f_h s);
  wf_sf : forall x, okp (h_sf (f_h s)) (v_sf s x);
  wf_af : forall x, okp (h_af (f_h s)) (v_af s x);
  wf_opv : forall x, okp (h_op (f_h s)) (v_op s x);
  wf_opsv : forall x, okp (h_ops (f_h s)) (v_ops s x);
  wf_rule : forall x n, v_rule s x = HOps n -> (n < List.length (h_ops (f_h s)))%nat }.
Lemma wff_start : wff f_start.
Proof. constructor; cbn; try (intros; apply okp_none); try discriminate. constructor; intros n; destruct n; discriminate. Qed.
Lemma wff_h s h w : wff s -> wfh h -> agree (f_h s) h w -> wff (with_h s h).
Proof.
  intros [A B C D E F] H G. destruct (agree_len _ _ _ G) as (L1 & L2 & L3 & L4).
  constructor; cbn [with_h f_h v_sf v_af v_op v_ops v_rule]; auto; try (intros x; eapply okp_le; eauto).
  intros x n R. specialize (F x n R). lia.
Qed.
Lemma wff_sf s x p : wff s -> okp (h_sf (f_h s)) p -> wff (let_sf s x p).
Proof. intros [A B C D E F] H. constructor; cbn [let_sf f_h v_sf v_af v_op v_ops v_rule]; auto. intros y. unfold upd. now destruct (Nat.eqb _ _). Qed.
Lemma wff_af s x p : wff s -> okp (h_af (f_h s)) p -> wff (let_af s x p).
Proof. intros [A B C D E F] H. constructor; cbn [let_af f_h v_sf v_af v_op v_ops v_rule]; auto. intros y. unfold upd. now destruct (Nat.eqb _ _). Qed.
Lemma wff_op s x p : wff s -> okp (h_op (f_h s)) p -> wff (let_op s x p).
Proof. intros [A B C D E F] H. constructor; cbn [let_op f_h v_sf v_af v_op v_ops v_rule]; auto. intros y. unfold upd. now destruct (Nat.eqb _ _). Qed.
Lemma wff_ops s x p : wff s -> okp (h_ops (f_h s)) p -> wff (let_ops s x p).
Proof. intros [A B C D E F] H. constructor; cbn [let_ops f_h v_sf v_af v_op v_ops v_rule]; auto. intros y. unfold upd. now destruct (Nat.eqb _ _). Qed.
Lemma wff_rule s x p : wff s -> (forall n, p = HOps n -> (n < List.length (h_ops (f_h s)))%nat) -> wff (let_rule s x p).
Proof. intros [A B C D E F] H. constructor; cbn [let_rule f_h v_sf v_af v_op v_ops v_rule]; auto. intros y n. unfold upd. destruct (Nat.eqb _ _); eauto. Qed.
Lemma last_in l n : last_ref l = Some n -> In n l.
Proof. unfold last_ref. intros E. apply nth_error_In in E. now apply in_rev. Qed.
Lemma removelast_in {A} (l : list A) x : In x (removelast l) -> In x l.
Proof.
  destruct (removelast_split l) as [->|[y E]]; [easy|]. intros I. rewrite E. apply in_app_iff. now left.
Qed.
Lemma agree_w h h' w w' : agree h h' None -> w' = w -> agree h h' w'.
Proof.
  intros (A & B & C & D) _. split; [|split; [|split]].
  - destruct A as [L K]. split; [exact L|]. intros n N _. apply K; [exact N|discriminate].
  - destruct B as [L K]. split; [exact L|]. intros n N _. apply K; [exact N|discriminate].
  - destruct C as [L K]. split; [exact L|]. intros n N _. apply K; [exact N|discriminate].
  - destruct D as [L K]. split; [exact L|]. intros n N _. apply K; [exact N|discriminate].
Qed.
Lemma all_ok_nil {A} (h : list A) : all_ok h [].
Proof. intros m []. Qed.
Lemma okp_lt {A} (h : list A) n : (n < List.length h)%nat -> okp h (Some n).
Proof. intros L m [= <-]. exact L. Qed.
Lemma step_ok pad s c : wff s -> wff (f_step pad s c) /\ agree (f_h s) (f_h (f_step pad s c)) (changes s c).
Proof.
  intros Wf. assert (Wf0 := Wf). destruct Wf0 as [A B C D E F]. destruct c; cbn [f_step changes].
  - destruct (new_sf _ _) as [h1 p] eqn:N. destruct (new_sf_ok _ _ _ _ N A) as (A1 & G & O & _).
    split; [|exact G]. apply wff_sf; [now apply (wff_h s h1 None)|exact O].
  - split; [|apply agree_refl]. apply wff_sf; auto.
  - destruct (v_sf s x) as [n|] eqn:X.
    + cbn [on]. destruct (sf_set _ _) as [t|] eqn:Y; [|split; [exact Wf|apply agree_refl]].
      destruct (set_sf_ok (f_h s) n t A) as [A1 G]. split; [|exact G]. now apply (wff_h s _ (Some (CSf n))).
    + destruct (new_sf _ _) as [h1 p] eqn:N. destruct (new_sf_ok _ _ _ _ N A) as (A1 & G & O & _).
      split; [|exact G]. apply wff_sf; [now apply (wff_h s h1 None)|exact O].
  - split; [|apply agree_refl]. apply wff_sf; [exact Wf|]. destruct (af_isZero _); [apply okp_none|].
    destruct (v_af s a) as [n|]; cbn [rd]; [|apply okp_none]. destruct (nth_error _ _) as [[b q]|] eqn:X; [|apply okp_none]. exact (w_af _ A _ _ _ X).
  - destruct (aset _ _ _ _) as [h1 c] eqn:N. destruct (aset_ok _ _ _ _ _ _ N A B (okp_none _)) as (A1 & G & O & _).
    destruct (add_af_ok h1 c A1 O) as [A2 G2]. assert (G3 := agree_trans _ _ _ _ G G2).
    split; [|exact G3]. apply wff_af; [now apply (wff_h s _ None)|]. apply okp_last.
  - split; [|apply agree_refl]. apply wff_af; auto.
  - unfold show_af. destruct (af_isZero _) eqn:Z.
    + destruct (aset _ _ _ _) as [h1 c] eqn:N. destruct (aset_ok _ _ _ _ _ _ N A B (okp_none _)) as (A1 & G & O & _).
      destruct (add_af_ok h1 c A1 O) as [A2 G2]. assert (G3 := agree_trans _ _ _ _ G G2).
      split; [|exact G3]. apply wff_af; [now apply (wff_h s _ None)|]. apply okp_last.
    + destruct (v_af s a) as [n|] eqn:X; [|discriminate Z]. destruct (nth_error _ _) as [c|] eqn:Y; [|split; [exact Wf|apply agree_refl]].
      destruct (aset _ _ _ _) as [h1 c1] eqn:N. destruct (aset_ok _ _ _ _ _ _ N A B) as (A1 & G & O & _).
      { destruct c as [b q]. exact (w_af _ A _ _ _ Y). }
      destruct (set_af_ok h1 n c1 A1 O) as [A2 G2]. assert (G3 := agree_trans _ _ _ _ G G2). cbn [on].
      split; [|exact G3]. now apply (wff_h s _ (Some (CAf n))).
  - destruct (opush _ _ _ _) as [h1 c] eqn:N. destruct (opush_ok _ _ _ _ _ _ N A C (all_ok_nil _)) as (A1 & G & O & _).
    destruct (add_op_ok h1 c A1 O) as [A2 G2]. assert (G3 := agree_trans _ _ _ _ G G2).
    split; [|exact G3]. apply wff_op; [now apply (wff_h s _ None)|]. apply okp_last.
  - split; [|apply agree_refl]. apply wff_op; auto.
  - destruct (v_op s o) as [n|] eqn:X; [|split; [exact Wf|apply agree_refl]]. destruct (nth_error _ _) as [c|] eqn:Y; [|split; [exact Wf|apply agree_refl]].
    destruct (opush _ _ _ _) as [h1 c1] eqn:N. destruct (opush_ok _ _ _ _ _ _ N A C) as (A1 & G & O & _).
    { destruct c as [b l]. intros m M. exact (w_op _ A _ _ _ _ Y M). }
    destruct (set_op_ok h1 n c1 A1 O) as [A2 G2]. assert (G3 := agree_trans _ _ _ _ G G2). cbn [on].
    split; [|exact G3]. now apply (wff_h s _ (Some (COp n))).
  - destruct (v_op s o) as [n|] eqn:X; [|split; [apply wff_af; [exact Wf|apply okp_none]|apply agree_refl]].
    destruct (nth_error _ _) as [[k l]|] eqn:Y; [|split; [apply wff_af; [exact Wf|apply okp_none]|apply agree_refl]].
    assert (O : all_ok (h_af (f_h s)) l) by (intros m M; exact (w_op _ A _ _ _ _ Y M)).
    destruct (set_op_ok (f_h s) n (k, removelast l) A) as [A2 G2]; [intros m M; apply O; now apply removelast_in|].
    cbn [on]. split; [|exact G2]. apply wff_af; [now apply (wff_h s _ (Some (COp n)))|].
    intros m M. apply O. now apply last_in.
  - split; [|apply agree_refl]. apply wff_af; [exact Wf|]. destruct (v_op s o) as [n|]; cbn [rd]; [|apply okp_none].
    destruct (nth_error _ _) as [[k l]|] eqn:Y; [|apply okp_none]. intros m M. apply nth_error_In in M. exact (w_op _ A _ _ _ _ Y M).
  - destruct (add_ops_ok (f_h s) (","%char, []) A (all_ok_nil _)) as [A2 G2]. split; [|exact G2].
    apply wff_ops; [now apply (wff_h s _ None)|]. apply okp_last.
  - split; [|apply agree_refl]. apply wff_ops; auto.
  - destruct (v_ops s p) as [n|] eqn:X; [|split; [exact Wf|apply agree_refl]]. destruct (nth_error _ _) as [c|] eqn:Y; [|split; [exact Wf|apply agree_refl]].
    destruct (lpush _ _ _ _) as [h1 c1] eqn:N. destruct (lpush_ok _ _ _ _ _ _ N A D) as (A1 & G & O & _).
    { destruct c as [b l]. intros m M. exact (w_ops _ A _ _ _ _ Y M). }
    destruct (set_ops_ok h1 n c1 A1 O) as [A2 G2]. assert (G3 := agree_trans _ _ _ _ G G2). cbn [on].
    split; [|exact G3]. now apply (wff_h s _ (Some (COps n))).
  - destruct (v_ops s p) as [n|] eqn:X; [|split; [apply wff_op; [exact Wf|apply okp_none]|apply agree_refl]].
    destruct (nth_error _ _) as [[k l]|] eqn:Y; [|split; [apply wff_op; [exact Wf|apply okp_none]|apply agree_refl]].
    assert (O : all_ok (h_op (f_h s)) l) by (intros m M; exact (w_ops _ A _ _ _ _ Y M)).
    destruct (set_ops_ok (f_h s) n (k, removelast l) A) as [A2 G2]; [intros m M; apply O; now apply removelast_in|].
    cbn [on]. split; [|exact G2]. apply wff_op; [now apply (wff_h s _ (Some (COps n)))|].
    intros m M. apply O. now apply last_in.
  - split; [|apply agree_refl]. apply wff_op; [exact Wf|]. destruct (v_ops s p) as [n|]; cbn [rd]; [|apply okp_none].
    destruct (nth_error _ _) as [[k l]|] eqn:Y; [|apply okp_none]. intros m M. apply nth_error_In in M. exact (w_ops _ A _ _ _ _ Y M).
  - destruct (v_ops s p) as [n|] eqn:X; [|split; [exact Wf|apply agree_refl]].
    destruct (nth_error _ _) as [[k l]|] eqn:Y; [|split; [exact Wf|apply agree_refl]].
    destruct (set_ops_ok (f_h s) n (if semi then ";"%char else ","%char, l) A) as [A2 G2]; [intros m M; exact (w_ops _ A _ _ _ _ Y M)|].
    cbn [on]. split; [|exact G2]. now apply (wff_h s _ (Some (COps n))).
  - split; [|apply agree_refl]. apply wff_rule; [exact Wf|]. intros n. destruct (op_at _ _); discriminate.
  - split; [|apply agree_refl]. apply wff_rule; [exact Wf|]. intros n. destruct (v_ops s p) as [m|] eqn:X; [|discriminate]. intros [= <-]. exact (E p m X).
Qed.
Lemma run_ok pad p : forall s, wff s -> wff (f_run pad s p).
Proof. unfold f_run. induction p as [|c p IH]; intros s H; [exact H|]. cbn [fold_left]. apply IH. now apply step_ok. Qed.
Lemma start_ok pad p : wff (f_run pad f_start p).
Proof. apply run_ok, wff_start. Qed.
(* variables other than the assigned one *)
Lemma step_vars pad s c :
  (forall x, assigns s c <> Some (VSf x) -> v_sf (f_step pad s c) x = v_sf s x) /\
  (forall x, assigns s c <> Some (VAf x) -> v_af (f_step pad s c) x = v_af s x) /\
  (forall x, assigns s c <> Some (VOp x) -> v_op (f_step pad s c) x = v_op s x) /\
  (forall x, assigns s c <> Some (VOps x) -> v_ops (f_step pad s c) x = v_ops s x) /\
  (forall x, assigns s c <> Some (VRule x) -> v_rule (f_step pad s c) x = v_rule s x).
Proof.
  destruct c; cbn [f_step assigns]; unfold show_af;
  repeat match goal with
  | |- context [let '(_, _) := ?t in _] => destruct t as [? ?]
  | |- context [match ?t with None => _ | Some _ => _ end] => destruct t as [?|] eqn:?
  | |- context [match ?t with (_, _) => _ end] => destruct t as [? ?]
  | |- context [if ?t then _ else _] => destruct t eqn:?
  end;
  repeat split; intros vv HV; cbn [with_h let_sf let_af let_op let_ops let_rule f_h v_sf v_af v_op v_ops v_rule]; try reflexivity;
  try (apply upd_other; congruence).
Qed.
Lemma frame_view pad s c v : wff s -> ~ concerns s c v -> same_view pad s (f_step pad s c) v.
Proof.
  intros Wf N. destruct (step_ok pad s c Wf) as [_ G]. destruct (step_vars pad s c) as (S1 & S2 & S3 & S4 & S5).
  assert (AS : assigns s c <> Some v) by (intros H; apply N; now left).
  assert (AP : apart (part s v) (changes s c)) by (intros w W H; apply N; right; now exists w).
  destruct v as [x|x|x|x|x]; cbn [same_view part] in *; unfold show_sf, show_af, show_op, show_ops, show_rule.
  - rewrite S1 by exact AS. apply (sf_keep _ _ _ _ G); [apply (wf_sf s Wf)|exact AP].
  - rewrite S2 by exact AS. apply (af_keep _ _ _ _ (wf_h s Wf) G); [apply (wf_af s Wf)|exact AP].
  - rewrite S3 by exact AS. apply (op_keep _ _ _ _ (wf_h s Wf) G); [apply (wf_opv s Wf)|exact AP].
  - rewrite S4 by exact AS. apply (ops_keep _ _ _ _ (wf_h s Wf) G); [apply (wf_opsv s Wf)|exact AP].
  - rewrite S5 by exact AS. destruct (v_rule s x) as [|r|n] eqn:R; [reflexivity|reflexivity|]. f_equal.
    apply (ops_keep _ _ _ _ (wf_h s Wf) G); [apply okp_lt, (wf_rule s Wf x n R)|].
    intros w W H. apply (AP w W). cbn [part]. now rewrite R.
Qed.
Lemma rd_wr {A} (h : list A) n c : (n < List.length h)%nat -> rd (wr h n c) (Some n) = Some c.
Proof. intros L. now apply wr_same. Qed.
Lemma op_at_cell h n c : nth_error (h_op h) n = Some c -> op_at h (Some n) = Some (op_cell h c).
Proof. intros E. unfold op_at, rd. rewrite E. now destruct c. Qed.
Lemma ops_at_cell h n c : nth_error (h_ops h) n = Some c -> ops_at h (Some n) = Some (ops_cell h c).
Proof. intros E. unfold ops_at, rd. rewrite E. now destruct c. Qed.
Lemma af_at_cell h n c : nth_error (h_af h) n = Some c -> af_at h (Some n) = Some (af_cell h c).
Proof. intros E. unfold af_at, rd. rewrite E. now destruct c. Qed.
Lemma op_at_inv h p v : op_at h p = Some v -> exists n c, p = Some n /\ nth_error (h_op h) n = Some c /\ v = op_cell h c.
Proof.
  destruct p as [n|]; [|discriminate]. unfold op_at, rd. destruct (nth_error (h_op h) n) as [[o l]|] eqn:E; [|discriminate].
  intros [= <-]. now exists n, (o, l).
Qed.
Lemma ops_at_inv h p v : ops_at h p = Some v -> exists n c, p = Some n /\ nth_error (h_ops h) n = Some c /\ v = ops_cell h c.
Proof.
  destruct p as [n|]; [|discriminate]. unfold ops_at, rd. destruct (nth_error (h_ops h) n) as [[o l]|] eqn:E; [|discriminate].
  intros [= <-]. now exists n, (o, l).
Qed.
Lemma nth_some_lt {A} (h : list A) n c : nth_error h n = Some c -> (n < List.length h)%nat.
Proof. intros E. apply nth_error_Some. congruence. Qed.
Lemma last_map {A B} (f : A -> B) l : nth_error (rev (map f l)) 0 = option_map f (nth_error (rev l) 0).
Proof. rewrite <- map_rev. destruct (rev l); reflexivity. Qed.
Lemma removelast_map {A B} (f : A -> B) l : removelast (map f l) = map f (removelast l).
Proof. induction l as [|a [|b l] IH]; [reflexivity|reflexivity|]. cbn [map removelast] in *. now rewrite IH. Qed.
Lemma o_val_value s x : o_val (v_af s) (f_h s) x = o_value s x.
Proof. now destruct x. Qed.
Lemma a_val_value s x : a_val (v_sf s) (f_h s) x = a_value s x.
Proof. now destruct x. Qed.
Lemma l_val_value s x : l_val (v_op s) (f_h s) x = l_value s x.
Proof. now destruct x. Qed.

(* the cell at n after a statement on it *)
Lemma push_cell pad s o xs n c : wff s -> v_op s o = Some n -> nth_error (h_op (f_h s)) n = Some c ->
  op_at (f_h (f_step pad s (OPush o xs))) (Some n) = Some (afo_push (op_cell (f_h s) c) (map (o_value s) xs)).
Proof.
  intros Wf V E. cbn [f_step]. rewrite V, E. destruct (opush _ _ _ _) as [h1 c1] eqn:N.
  destruct (opush_ok _ _ _ _ _ _ N (wf_h s Wf) (wf_af s Wf)) as (A1 & G & O & HO & _ & I).
  { destruct c as [b l]. intros m M. exact (w_op _ (wf_h s Wf) _ _ _ _ E M). }
  cbn [with_h f_h]. rewrite (op_at_cell _ n c1).
  - f_equal. change (op_cell (set_op h1 n c1) c1) with (op_cell h1 c1). rewrite I. reflexivity.
  - cbn [set_op h_op]. apply (rd_wr (h_op h1)). rewrite HO. now apply nth_some_lt in E.
Qed.
Lemma pop_cell pad s a o n k l : v_op s o = Some n -> nth_error (h_op (f_h s)) n = Some (k, l) ->
  op_at (f_h (f_step pad s (OPop a o))) (Some n) = Some (afo_pop (op_cell (f_h s) (k, l))).
Proof.
  intros V E. cbn [f_step]. rewrite V, E. cbn [let_af with_h f_h]. rewrite (op_at_cell _ n (k, removelast l)).
  - f_equal. unfold afo_pop, op_cell, pop. cbn [afo_op afo_mem fst snd]. now rewrite removelast_map.
  - cbn [set_op h_op]. apply (rd_wr (h_op (f_h s))). now apply nth_some_lt in E.
Qed.
Lemma lpush_cell pad s p xs n c : wff s -> v_ops s p = Some n -> nth_error (h_ops (f_h s)) n = Some c ->
  ops_at (f_h (f_step pad s (LPush p xs))) (Some n) = Some (afos_push (ops_cell (f_h s) c) (map (l_value s) xs)).
Proof.
  intros Wf V E. cbn [f_step]. rewrite V, E. destruct (lpush _ _ _ _) as [h1 c1] eqn:N.
  destruct (lpush_ok _ _ _ _ _ _ N (wf_h s Wf) (wf_opv s Wf)) as (A1 & G & O & HO & I & _).
  { destruct c as [b l]. intros m M. exact (w_ops _ (wf_h s Wf) _ _ _ _ E M). }
  cbn [with_h f_h]. rewrite (ops_at_cell _ n c1).
  - f_equal. change (ops_cell (set_ops h1 n c1) c1) with (ops_cell h1 c1). rewrite I. reflexivity.
  - cbn [set_ops h_ops]. apply (rd_wr (h_ops h1)). rewrite HO. now apply nth_some_lt in E.
Qed.
Lemma lpop_cell pad s o p n k l : v_ops s p = Some n -> nth_error (h_ops (f_h s)) n = Some (k, l) ->
  ops_at (f_h (f_step pad s (LPop o p))) (Some n) = Some (afos_pop (ops_cell (f_h s) (k, l))).
Proof.
  intros V E. cbn [f_step]. rewrite V, E. cbn [let_op with_h f_h]. rewrite (ops_at_cell _ n (k, removelast l)).
  - f_equal. unfold afos_pop, ops_cell, pop. cbn [afos_delim afos_mem fst snd]. now rewrite removelast_map.
  - cbn [set_ops h_ops]. apply (rd_wr (h_ops (f_h s))). now apply nth_some_lt in E.
Qed.
Lemma delim_cell pad s p b n c : v_ops s p = Some n -> nth_error (h_ops (f_h s)) n = Some c ->
  ops_at (f_h (f_step pad s (LDelim p b))) (Some n) = Some (afos_setDelimiter (ops_cell (f_h s) c) b).
Proof.
  intros V E. cbn [f_step]. rewrite V, E. destruct c as [k l]. cbn [with_h f_h]. rewrite (ops_at_cell _ n (if b then ";"%char else ","%char, l)).
  - reflexivity.
  - cbn [set_ops h_ops]. apply (rd_wr (h_ops (f_h s))). now apply nth_some_lt in E.
Qed.

(* ---- C113 ---- *)
(* False: an operation can come to hold two equal filters, or one without a filter text,
   and a list of operations an empty one, because Set and Pop on a value that was pushed
   reach the value in the stack. *)
Definition two_filters : list fstmt := [ANew 0 [RStr "cn"; RStr "(x=1)"]; ANew 1 [RStr "cn"; RStr "(x=2)"]; ONew 0 (Some AddOp) [QAF 0; QAF 1]].
Theorem C113_refuted :
  ~ (forall pad p o v, show_op (f_run pad f_start p) o = Some v -> NoDup (map af_string (afo_mem v))) /\
  ~ (forall pad p o v f, show_op (f_run pad f_start p) o = Some v -> In f (afo_mem v) -> af_valid f = true) /\
  ~ (forall pad p l v o, show_ops (f_run pad f_start p) l = Some v -> In o (afos_mem v) -> afo_mem o <> []) /\
  ~ (forall pad p l v, show_ops (f_run pad f_start p) l = Some v -> NoDup (map afo_string (afos_mem v))).
Proof.
  split; [|split; [|split]].
  - intros H. assert (E : show_op (f_run true f_start (two_filters ++ [ASet 1 [RStr "(x=1)"]])) 0 =
      Some (MkAFO AddOp [Some (Some "cn", Some "(x=1)"); Some (Some "cn", Some "(x=1)")])) by (vm_compute; reflexivity).
    apply H in E. inversion E as [|x l N _]. apply N. now left.
  - intros H. assert (E : show_op (f_run true f_start (two_filters ++ [ASet 1 [RSF 7]])) 0 =
      Some (MkAFO AddOp [Some (Some "cn", Some "(x=1)"); Some (Some "cn", None)])) by (vm_compute; reflexivity).
    specialize (H _ _ _ _ (Some (Some "cn", None)) E (or_intror (or_introl eq_refl))). discriminate.
  - intros H. assert (E : show_ops (f_run true f_start (two_filters ++ [LNew 0; LPush 0 [UOp 0]; OPop 3 0; OPop 3 0])) 0 =
      Some (MkAFOs "," [MkAFO AddOp []])) by (vm_compute; reflexivity).
    now apply (H _ _ _ _ _ E (or_introl eq_refl)).
  - intros H. assert (E : show_ops (f_run true f_start (two_filters ++ [ONew 1 (Some AddOp) [QAF 0]; LNew 0; LPush 0 [UOp 0; UOp 1]; OPop 3 0])) 0 =
      Some (MkAFOs "," [MkAFO AddOp [Some (Some "cn", Some "(x=1)")]; MkAFO AddOp [Some (Some "cn", Some "(x=1)")]])) by (vm_compute; reflexivity).
    apply H in E. inversion E as [|x l N _]. apply N. now left.
Qed.
(* A statement changes what a variable shows only if it assigns the variable or calls Set,
   Push, Pop or SetDelimiter on a value the variable is made of. *)
Theorem C113_frame : forall pad p c v, let s := f_run pad f_start p in
  ~ concerns s c v -> same_view pad s (f_step pad s c) v.
Proof. intros pad p c v s N. apply frame_view; [apply start_ok|exact N]. Qed.
(* Push, Pop and Index, seen through every variable that holds the operation *)
Theorem C113_push : forall pad p o o' xs, let s := f_run pad f_start p in v_op s o' = v_op s o ->
  show_op (f_step pad s (OPush o xs)) o' = option_map (fun r => afo_push r (map (o_value s) xs)) (show_op s o).
Proof.
  intros pad p o o' xs s E. unfold show_op. assert (Wf : wff s) by apply start_ok.
  destruct (step_vars pad s (OPush o xs)) as (_ & _ & S3 & _). rewrite S3 by discriminate. rewrite E.
  destruct (op_at (f_h s) (v_op s o)) as [v|] eqn:O.
  - apply op_at_inv in O as (n & c & V & N & ->). rewrite V. now rewrite (push_cell pad s o xs n c Wf V N).
  - destruct (v_op s o) as [n|] eqn:V; [|reflexivity]. exfalso. rewrite op_at_val in O; [discriminate|]. exact (wf_opv s Wf o n V).
Qed.
Theorem C113_new : forall pad p o op xs, let s := f_run pad f_start p in
  show_op (f_step pad s (ONew o op xs)) o =
  Some (match op with Some n => aop_AFO n (map (o_value s) xs) | None => AFO (map (o_value s) xs) end).
Proof.
  intros pad p o op xs s. assert (Wf : wff s) by apply start_ok. unfold show_op. cbn [f_step].
  destruct (opush _ _ _ _) as [h1 c] eqn:N. cbn [let_op with_h f_h v_op]. rewrite upd_same.
  destruct (opush_ok _ _ _ _ _ _ N (wf_h s Wf) (wf_af s Wf) (all_ok_nil _)) as (A1 & G & O & HO & _ & I).
  rewrite (op_at_cell _ _ c) by apply rd_last. f_equal. change (op_cell (add_op h1 c) c) with (op_cell h1 c). rewrite I.
  unfold aop_AFO, AFO, op_cell. cbn [fst snd map].
  replace (map (o_val (v_af s) (f_h s)) xs) with (map (o_value s) xs) by (apply map_ext; intros x; symmetry; apply o_val_value).
  now destruct op.
Qed.
Theorem C113_pop : forall pad p a o o' r, let s := f_run pad f_start p in v_op s o' = v_op s o -> show_op s o = Some r ->
  show_op (f_step pad s (OPop a o)) o' = Some (afo_pop r) /\
  show_af (f_step pad s (OPop a o)) a = last (afo_mem r) None.
Proof.
  intros pad p a o o' r s E R. assert (Wf : wff s) by apply start_ok. unfold show_op in R.
  apply op_at_inv in R as (n & [k l] & V & N & ->). split.
  - unfold show_op. destruct (step_vars pad s (OPop a o)) as (_ & _ & S3 & _). rewrite S3 by discriminate. rewrite E, V.
    now apply pop_cell.
  - unfold show_af. cbn [f_step]. rewrite V, N. cbn [let_af with_h f_h v_af]. rewrite upd_same. cbn [op_cell afo_mem fst snd].
    change (af_at (f_h s) (last_ref l) = last (map (fun n => af_at (f_h s) (Some n)) l) None). unfold last_ref. clear.
    induction l as [|x l IH] using rev_ind; [reflexivity|]. rewrite rev_app_distr, map_app. cbn [map]. now rewrite last_last.
Qed.
Theorem C113_index : forall pad p a o i r, let s := f_run pad f_start p in show_op s o = Some r ->
  show_af (f_step pad s (OIndex a o i)) a = nth i (afo_mem r) None /\ show_op (f_step pad s (OIndex a o i)) o = Some r.
Proof.
  intros pad p a o i r s R. split; [|exact R]. unfold show_op in R.
  apply op_at_inv in R as (n & [k l] & V & N & ->). unfold show_af. cbn [f_step]. rewrite V. cbn [rd]. rewrite N.
  cbn [let_af with_h f_h v_af]. rewrite upd_same. cbn [op_cell afo_mem fst snd]. clear. revert i.
  induction l as [|x l IH]; intros [|i]; [reflexivity|reflexivity|reflexivity|]. cbn [nth_error map nth]. apply IH.
Qed.
(* Set on a filter read by Index changes that member of the operation, and not its number of members *)
Theorem C113_member : forall pad p a o i r f xs, let s := f_run pad f_start p in
  show_op s o = Some r -> nth_error (afo_mem r) i = Some f -> af_isZero f = false ->
  exists r', show_op (f_run pad s [OIndex a o i; ASet a xs]) o = Some r' /\ afo_op r' = afo_op r /\
    List.length (afo_mem r') = List.length (afo_mem r) /\
    nth_error (afo_mem r') i = Some (af_set f (map (a_value s) xs)).
Proof.
  intros pad p a o i r f xs s R F Z. assert (Wf : wff s) by apply start_ok.
  unfold show_op in R. apply op_at_inv in R as (n & [k l] & V & N & ->). cbn [op_cell fst snd afo_op afo_mem] in *.
  rewrite nth_error_map in F. destruct (nth_error l i) as [m|] eqn:L; [|discriminate F]. cbn [option_map] in F. injection F as F.
  cbn [f_run fold_left]. set (s1 := f_step pad s (OIndex a o i)).
  assert (H1 : f_h s1 = f_h s) by reflexivity.
  assert (V1 : v_af s1 a = Some m). { unfold s1. cbn [f_step]. rewrite V. cbn [rd]. rewrite N. cbn [let_af v_af]. rewrite upd_same. exact L. }
  assert (O1 : v_op s1 o = Some n) by exact V.
  assert (SF : v_sf s1 = v_sf s) by reflexivity.
  assert (M : (m < List.length (h_af (f_h s)))%nat). { apply nth_error_In in L. exact (w_op _ (wf_h s Wf) _ _ _ _ N L). }
  destruct (nth_error (h_af (f_h s)) m) as [c|] eqn:C; [|apply nth_error_None in C; lia].
  rewrite (af_at_cell _ _ _ C) in F.
  assert (X : f_h (f_step pad s1 (ASet a xs)) = (let '(h1, c1) := aset (v_sf s) (f_h s) c xs in set_af h1 m c1) /\ v_op (f_step pad s1 (ASet a xs)) o = Some n).
  { cbn [f_step]. rewrite V1, H1, (af_at_cell _ _ _ C), F, Z, C, SF. destruct (aset _ _ _ _) as [h1 c1]. now split. }
  destruct X as [X Y]. unfold show_op. rewrite X, Y. destruct (aset _ _ _ _) as [h1 c1] eqn:A.
  assert (OK : okp (h_sf (f_h s)) (snd c)) by (destruct c as [b q]; exact (w_af _ (wf_h s Wf) _ _ _ C)).
  destruct (aset_ok _ _ _ _ _ _ A (wf_h s Wf) (wf_sf s Wf) OK) as (A1 & G & O & HA & HO & _ & I).
  rewrite (op_at_cell _ n (k, l)) by (cbn [set_af h_op]; now rewrite HO).
  eexists. split; [reflexivity|]. cbn [op_cell fst snd afo_op afo_mem]. rewrite !map_length. split; [reflexivity|]. split; [reflexivity|].
  rewrite nth_error_map, L. cbn [option_map]. f_equal. rewrite (af_at_cell _ m c1).
  - change (af_cell (set_af h1 m c1) c1) with (af_cell h1 c1). rewrite I. rewrite <- F in Z |- *. unfold af_set. rewrite Z. reflexivity.
  - cbn [set_af h_af]. apply (rd_wr (h_af h1)). now rewrite HA.
Qed.
(* the same for lists of operations *)
Theorem C113_list_push : forall pad p l l' xs, let s := f_run pad f_start p in v_ops s l' = v_ops s l ->
  show_ops (f_step pad s (LPush l xs)) l' = option_map (fun r => afos_push r (map (l_value s) xs)) (show_ops s l).
Proof.
  intros pad p o o' xs s E. unfold show_ops. assert (Wf : wff s) by apply start_ok.
  destruct (step_vars pad s (LPush o xs)) as (_ & _ & _ & S4 & _). rewrite S4 by discriminate. rewrite E.
  destruct (ops_at (f_h s) (v_ops s o)) as [v|] eqn:O.
  - apply ops_at_inv in O as (n & c & V & N & ->). rewrite V. now rewrite (lpush_cell pad s o xs n c Wf V N).
  - destruct (v_ops s o) as [n|] eqn:V; [|reflexivity]. exfalso. pose proof (wf_opsv s Wf o n V) as L.
    destruct (nth_error (h_ops (f_h s)) n) as [c|] eqn:C; [|apply nth_error_None in C; lia]. rewrite (ops_at_cell _ _ _ C) in O. discriminate.
Qed.
Theorem C113_list_pop : forall pad p o l l' r b, let s := f_run pad f_start p in v_ops s l' = v_ops s l -> show_ops s l = Some r ->
  show_ops (f_step pad s (LPop o l)) l' = Some (afos_pop r) /\
  show_op (f_step pad s (LPop o l)) o = nth_error (rev (afos_mem r)) 0 /\
  show_ops (f_step pad s (LDelim l b)) l' = Some (afos_setDelimiter r b) /\
  show_ops (f_step pad s (LNew l)) l = Some AFOs0 /\
  (forall i, show_op (f_step pad s (LIndex o l i)) o = nth_error (afos_mem r) i).
Proof.
  intros pad p o l l' r b s E R. assert (Wf : wff s) by apply start_ok. unfold show_ops in R.
  apply ops_at_inv in R as (n & [k ml] & V & N & ->).
  assert (B : all_ok (h_op (f_h s)) ml) by (intros m M; exact (w_ops _ (wf_h s Wf) _ _ _ _ N M)).
  split; [|split; [|split; [|split]]].
  - unfold show_ops. destruct (step_vars pad s (LPop o l)) as (_ & _ & _ & S4 & _). rewrite S4 by discriminate. rewrite E, V.
    now apply lpop_cell.
  - unfold show_op. cbn [f_step]. rewrite V, N. cbn [let_op with_h f_h v_op]. rewrite upd_same. cbn [ops_cell afos_mem fst snd].
    change (op_at (f_h s) (last_ref ml) = nth_error (rev (map (op_val (f_h s)) ml)) 0). rewrite last_map. unfold last_ref.
    destruct (nth_error (rev ml) 0) as [m|] eqn:M; [|reflexivity]. cbn [option_map]. apply op_at_val, B, in_rev. now apply nth_error_In in M.
  - unfold show_ops. destruct (step_vars pad s (LDelim l b)) as (_ & _ & _ & S4 & _). rewrite S4 by discriminate. rewrite E, V.
    now apply delim_cell.
  - unfold show_ops. cbn [f_step let_ops with_h f_h v_ops]. rewrite upd_same. rewrite (ops_at_cell _ _ (","%char, [])) by apply rd_last. reflexivity.
  - intros i. unfold show_op. cbn [f_step]. rewrite V. cbn [rd]. rewrite N. cbn [let_op with_h f_h v_op]. rewrite upd_same.
    cbn [ops_cell afos_mem fst snd]. rewrite nth_error_map. destruct (nth_error ml i) as [m|] eqn:M; [|reflexivity].
    cbn [option_map]. apply op_at_val, B. now apply nth_error_In in M.
Qed.
Lemma op_val_cell h n c : nth_error (h_op h) n = Some c -> op_val h n = op_cell h c.
Proof. intros E. unfold op_val. now rewrite (op_at_cell _ _ _ E). Qed.
Lemma new_op_cells pad s c n : wff s -> (n < List.length (h_op (f_h (f_step pad s c))))%nat ->
  (n < List.length (h_op (f_h s)))%nat \/ good_op (op_val (f_h (f_step pad s c)) n).
Proof.
  intros Wf L. assert (Wf0 := Wf). destruct Wf0 as [A B C D E F]. destruct c; cbn [f_step] in *.
  - left. destruct (new_sf _ _) as [h1 q] eqn:N. destruct (new_sf_ok _ _ _ _ N A) as (_ & _ & _ & _ & _ & H & _). cbn in L. now rewrite H in L.
  - now left.
  - left. destruct (v_sf s x) as [m|]; [now destruct (sf_set _ _)|].
    destruct (new_sf _ _) as [h1 q] eqn:N. destruct (new_sf_ok _ _ _ _ N A) as (_ & _ & _ & _ & _ & H & _). cbn in L. now rewrite H in L.
  - now left.
  - left. destruct (aset _ _ _ _) as [h1 q] eqn:N. destruct (aset_ok _ _ _ _ _ _ N A B (okp_none _)) as (_ & _ & _ & _ & H & _). cbn in L. now rewrite H in L.
  - now left.
  - left. destruct (af_isZero _).
    + destruct (aset _ _ _ _) as [h1 q] eqn:N. destruct (aset_ok _ _ _ _ _ _ N A B (okp_none _)) as (_ & _ & _ & _ & H & _). cbn in L. now rewrite H in L.
    + destruct (v_af s a) as [m|]; [|exact L]. destruct (nth_error _ _) as [c|] eqn:Y; [|exact L].
      destruct (aset _ _ _ _) as [h1 q] eqn:N. destruct (aset_ok _ _ _ _ _ _ N A B) as (_ & _ & _ & _ & H & _).
      { destruct c as [b t]. exact (w_af _ A _ _ _ Y). }
      cbn in L. now rewrite H in L.
  - destruct (opush _ _ _ _) as [h1 c] eqn:N. destruct (opush_ok _ _ _ _ _ _ N A C (all_ok_nil _)) as (A1 & G & O & H & _ & I).
    cbn [let_op with_h f_h] in *. cbn [add_op h_op] in L. rewrite app_length in L. cbn [List.length] in L. rewrite H in L.
    destruct (Nat.lt_ge_cases n (List.length (h_op (f_h s)))) as [K|K]; [now left|]. right.
    assert (n = List.length (h_op h1)) as -> by (rewrite H; lia). rewrite (op_val_cell _ _ c) by apply rd_last.
    change (op_cell (add_op h1 c) c) with (op_cell h1 c). rewrite I. apply good_push. apply good_new.
  - now left.
  - left. destruct (v_op s o) as [m|]; [|exact L]. destruct (nth_error _ _) as [c|] eqn:Y; [|exact L].
    destruct (opush _ _ _ _) as [h1 c1] eqn:N. destruct (opush_ok _ _ _ _ _ _ N A C) as (_ & _ & _ & H & _).
    { destruct c as [b l]. intros k M. exact (w_op _ A _ _ _ _ Y M). }
    cbn in L. now rewrite wr_len, H in L.
  - left. destruct (v_op s o) as [m|]; [|exact L]. destruct (nth_error _ _) as [[k l]|] eqn:Y; [|exact L]. cbn in L. now rewrite wr_len in L.
  - now left.
  - now left.
  - now left.
  - destruct (v_ops s p) as [m|]; [|now left]. destruct (nth_error _ _) as [c|] eqn:Y; [|now left].
    destruct (lpush _ _ _ _) as [h1 c1] eqn:N. destruct (lpush_ok _ _ _ _ _ _ N A D) as (_ & _ & _ & _ & _ & H).
    { destruct c as [b l]. intros k M. exact (w_ops _ A _ _ _ _ Y M). }
    exact (H n L).
  - left. destruct (v_ops s p) as [m|]; [|exact L]. now destruct (nth_error _ _) as [[k l]|] eqn:Y.
  - now left.
  - left. destruct (v_ops s p) as [m|]; [|exact L]. now destruct (nth_error _ _) as [[k l]|] eqn:Y.
  - now left.
  - now left.
Qed.
Lemma new_ops_cells pad s c n : wff s -> (n < List.length (h_ops (f_h (f_step pad s c))))%nat ->
  (n < List.length (h_ops (f_h s)))%nat \/ ops_at (f_h (f_step pad s c)) (Some n) = Some AFOs0.
Proof.
  intros Wf L. assert (Wf0 := Wf). destruct Wf0 as [A B C D E F]. destruct c; cbn [f_step] in *.
  - left. destruct (new_sf _ _) as [h1 q] eqn:N. destruct (new_sf_ok _ _ _ _ N A) as (_ & _ & _ & _ & _ & _ & H). cbn in L. now rewrite H in L.
  - now left.
  - left. destruct (v_sf s x) as [m|]; [now destruct (sf_set _ _)|].
    destruct (new_sf _ _) as [h1 q] eqn:N. destruct (new_sf_ok _ _ _ _ N A) as (_ & _ & _ & _ & _ & _ & H). cbn in L. now rewrite H in L.
  - now left.
  - left. destruct (aset _ _ _ _) as [h1 q] eqn:N. destruct (aset_ok _ _ _ _ _ _ N A B (okp_none _)) as (_ & _ & _ & _ & _ & H & _). cbn in L. now rewrite H in L.
  - now left.
  - left. destruct (af_isZero _).
    + destruct (aset _ _ _ _) as [h1 q] eqn:N. destruct (aset_ok _ _ _ _ _ _ N A B (okp_none _)) as (_ & _ & _ & _ & _ & H & _). cbn in L. now rewrite H in L.
    + destruct (v_af s a) as [m|]; [|exact L]. destruct (nth_error _ _) as [c|] eqn:Y; [|exact L].
      destruct (aset _ _ _ _) as [h1 q] eqn:N. destruct (aset_ok _ _ _ _ _ _ N A B) as (_ & _ & _ & _ & _ & H & _).
      { destruct c as [b t]. exact (w_af _ A _ _ _ Y). }
      cbn in L. now rewrite H in L.
  - left. destruct (opush _ _ _ _) as [h1 c] eqn:N. destruct (opush_ok _ _ _ _ _ _ N A C (all_ok_nil _)) as (_ & _ & _ & _ & H & _). cbn in L. now rewrite H in L.
  - now left.
  - left. destruct (v_op s o) as [m|]; [|exact L]. destruct (nth_error _ _) as [c|] eqn:Y; [|exact L].
    destruct (opush _ _ _ _) as [h1 c1] eqn:N. destruct (opush_ok _ _ _ _ _ _ N A C) as (_ & _ & _ & _ & H & _).
    { destruct c as [b l]. intros k M. exact (w_op _ A _ _ _ _ Y M). }
    cbn in L. now rewrite H in L.
  - left. destruct (v_op s o) as [m|]; [|exact L]. now destruct (nth_error _ _) as [[k l]|] eqn:Y.
  - now left.
  - cbn [let_ops with_h f_h] in *. cbn [add_ops h_ops] in L. rewrite app_length in L. cbn [List.length] in L.
    destruct (Nat.lt_ge_cases n (List.length (h_ops (f_h s)))) as [K|K]; [now left|]. right.
    assert (n = List.length (h_ops (f_h s))) as -> by lia. rewrite (ops_at_cell _ _ (","%char, [])) by apply rd_last. reflexivity.
  - now left.
  - left. destruct (v_ops s p) as [m|]; [|exact L]. destruct (nth_error _ _) as [c|] eqn:Y; [|exact L].
    destruct (lpush _ _ _ _) as [h1 c1] eqn:N. destruct (lpush_ok _ _ _ _ _ _ N A D) as (_ & _ & _ & H & _).
    { destruct c as [b l]. intros k M. exact (w_ops _ A _ _ _ _ Y M). }
    cbn in L. now rewrite wr_len, H in L.
  - left. destruct (v_ops s p) as [m|]; [|exact L]. destruct (nth_error _ _) as [[k l]|] eqn:Y; [|exact L]. cbn in L. now rewrite wr_len in L.
  - now left.
  - left. destruct (v_ops s p) as [m|]; [|exact L]. destruct (nth_error _ _) as [[k l]|] eqn:Y; [|exact L]. cbn in L. now rewrite wr_len in L.
  - now left.
  - now left.
Qed.
Definition all_good (h : heaps) : Prop := forall n v, op_at h (Some n) = Some v -> good_op v.
Definition lists_good (h : heaps) : Prop := forall n v, ops_at h (Some n) = Some v -> good_ops v.
Lemma op_part_op h n m : op_part h (Some n) (COp m) -> m = n.
Proof.
  intros (k & [= <-] & [[= ->]|(o & l & i & _ & _ & (j & _ & [X|(a & q & _ & (t & _ & X))]))]); [reflexivity|discriminate|discriminate].
Qed.
Lemma op_part_ops h p m : ~ op_part h p (COps m).
Proof. intros (k & _ & [X|(o & l & i & _ & _ & (j & _ & [X|(a & q & _ & (t & _ & X))]))]); discriminate. Qed.
Lemma ops_part_ops h n m : ops_part h (Some n) (COps m) -> m = n.
Proof. intros (k & [= <-] & [[= ->]|(o & l & i & _ & _ & X)]); [reflexivity|]. now apply op_part_ops in X. Qed.
Lemma good_pop v : good_op v -> good_op (afo_pop v).
Proof.
  intros [A B]. unfold good_op. cbn [afo_pop afo_mem]. unfold pop. destruct (removelast_split (afo_mem v)) as [->|[x E]]; [split; [easy|constructor]|].
  rewrite E in A, B. split; [intros f Hf; apply A, in_app_iff; now left|]. rewrite map_app in B. now apply NoDup_app_l in B.
Qed.
Lemma good_lpop v : good_ops v -> good_ops (afos_pop v).
Proof.
  intros [A B]. unfold good_ops. cbn [afos_pop afos_mem]. unfold pop. destruct (removelast_split (afos_mem v)) as [->|[x E]]; [split; [easy|constructor]|].
  rewrite E in A, B. split; [intros f Hf; apply A, in_app_iff; now left|]. rewrite map_app in B. now apply NoDup_app_l in B.
Qed.
Lemma op_at_lt h n v : op_at h (Some n) = Some v -> (n < List.length (h_op h))%nat.
Proof. intros E. apply op_at_inv in E as (m & c & [= <-] & N & _). now apply nth_some_lt in N. Qed.
Lemma ops_at_lt h n v : ops_at h (Some n) = Some v -> (n < List.length (h_ops h))%nat.
Proof. intros E. apply ops_at_inv in E as (m & c & [= <-] & N & _). now apply nth_some_lt in N. Qed.
Lemma good_step pad s c : wff s -> all_good (f_h s) -> calm s c -> all_good (f_h (f_step pad s c)).
Proof.
  intros Wf G CA n v V. destruct (new_op_cells pad s c n Wf (op_at_lt _ _ _ V)) as [L|H].
  2:{ rewrite (op_at_val _ _ (op_at_lt _ _ _ V)) in V. injection V as <-. exact H. }
  assert (X : changes s c = Some (COp n) \/ changes s c <> Some (COp n)).
  { destruct (changes s c) as [[m|m|m|m]|]; try (right; discriminate). destruct (Nat.eq_dec m n) as [->|N]; [now left|right; congruence]. }
  destruct (nth_error (h_op (f_h s)) n) as [k|] eqn:C; [|apply nth_error_None in C; lia].
  destruct X as [X|X].
  - assert (O := op_at_cell _ _ _ C). apply G in O. destruct c; cbn [changes] in X; try discriminate X.
    + destruct (v_sf s x); discriminate X.
    + destruct (af_isZero _); [discriminate X|]. destruct (v_af s a); discriminate X.
    + destruct (v_op s o) as [m|] eqn:VO; [|discriminate X]. injection X as ->.
      rewrite (push_cell pad s o xs n k Wf VO C) in V. injection V as <-. now apply good_push.
    + destruct (v_op s o) as [m|] eqn:VO; [|discriminate X]. injection X as ->. destruct k as [k l].
      rewrite (pop_cell pad s a o n k l VO C) in V. injection V as <-. now apply good_pop.
    + destruct (v_ops s p); discriminate X.
    + destruct (v_ops s p); discriminate X.
    + destruct (v_ops s p); discriminate X.
  - apply (G n). rewrite <- V. symmetry. destruct (step_ok pad s c Wf) as [_ AG].
    apply (op_keep _ _ _ _ (wf_h s Wf) AG); [now apply okp_lt|]. intros w W P.
    destruct c; cbn [changes] in W; try discriminate W.
    + now apply (CA w n W).
    + now apply (CA w n W).
    + destruct (v_op s o) as [m|] eqn:VO; [|discriminate W]. injection W as <-. apply op_part_op in P. subst m. apply X. cbn [changes]. now rewrite VO.
    + destruct (v_op s o) as [m|] eqn:VO; [|discriminate W]. injection W as <-. apply op_part_op in P. subst m. apply X. cbn [changes]. now rewrite VO.
    + destruct (v_ops s p); [|discriminate W]. injection W as <-. now apply op_part_ops in P.
    + destruct (v_ops s p); [|discriminate W]. injection W as <-. now apply op_part_ops in P.
    + destruct (v_ops s p); [|discriminate W]. injection W as <-. now apply op_part_ops in P.
Qed.
Lemma lists_step pad s c : wff s -> lists_good (f_h s) -> calm_list s c -> lists_good (f_h (f_step pad s c)).
Proof.
  intros Wf G CA n v V. destruct (new_ops_cells pad s c n Wf (ops_at_lt _ _ _ V)) as [L|H].
  2:{ rewrite V in H. injection H as ->. split; [easy|constructor]. }
  assert (X : changes s c = Some (COps n) \/ changes s c <> Some (COps n)).
  { destruct (changes s c) as [[m|m|m|m]|]; try (right; discriminate). destruct (Nat.eq_dec m n) as [->|N]; [now left|right; congruence]. }
  destruct (nth_error (h_ops (f_h s)) n) as [k|] eqn:C; [|apply nth_error_None in C; lia].
  destruct X as [X|X].
  - assert (O := ops_at_cell _ _ _ C). apply G in O. destruct c; cbn [changes] in X; try discriminate X.
    + destruct (v_sf s x); discriminate X.
    + destruct (af_isZero _); [discriminate X|]. destruct (v_af s a); discriminate X.
    + destruct (v_op s o); discriminate X.
    + destruct (v_op s o); discriminate X.
    + destruct (v_ops s p) as [m|] eqn:VO; [|discriminate X]. injection X as ->.
      rewrite (lpush_cell pad s p xs n k Wf VO C) in V. injection V as <-. now apply good_lpush.
    + destruct (v_ops s p) as [m|] eqn:VO; [|discriminate X]. injection X as ->. destruct k as [k l].
      rewrite (lpop_cell pad s o p n k l VO C) in V. injection V as <-. now apply good_lpop.
    + destruct (v_ops s p) as [m|] eqn:VO; [|discriminate X]. injection X as ->.
      rewrite (delim_cell pad s p semi n k VO C) in V. injection V as <-. exact O.
  - apply (G n). rewrite <- V. symmetry. destruct (step_ok pad s c Wf) as [_ AG].
    apply (ops_keep _ _ _ _ (wf_h s Wf) AG); [now apply okp_lt|]. intros w W P.
    destruct c; cbn [changes] in W; try discriminate W.
    + now apply (CA w n W).
    + now apply (CA w n W).
    + now apply (CA w n W).
    + now apply (CA w n W).
    + destruct (v_ops s p) as [m|] eqn:VO; [|discriminate W]. injection W as <-. apply ops_part_ops in P. subst m. apply X. cbn [changes]. now rewrite VO.
    + destruct (v_ops s p) as [m|] eqn:VO; [|discriminate W]. injection W as <-. apply ops_part_ops in P. subst m. apply X. cbn [changes]. now rewrite VO.
    + destruct (v_ops s p) as [m|] eqn:VO; [|discriminate W]. injection W as <-. apply ops_part_ops in P. subst m. apply X. cbn [changes]. now rewrite VO.
Qed.
(* As long as Set is called only on filters that are in no operation, every operation
   holds only complete filters with different texts, whatever else is done. *)
Theorem C113_partial : forall pad p o v, along pad calm f_start p ->
  show_op (f_run pad f_start p) o = Some v -> good_op v.
Proof.
  intros pad p o v H. assert (G : all_good (f_h (f_run pad f_start p))).
  { assert (K : all_good (f_h f_start)) by (intros [|n] w E; discriminate E). pose proof wff_start as Wf.
    unfold f_run. revert H K Wf. generalize f_start as s. induction p as [|c p IH]; intros s H K Wf; [exact K|].
    destruct H as [H H']. cbn [fold_left]. apply IH; [exact H'| |now apply step_ok]. now apply good_step. }
  unfold show_op. intros E. destruct (v_op _ o) as [n|]; [|discriminate E]. exact (G n v E).
Qed.
Theorem C113_list_partial : forall pad p l v, along pad calm_list f_start p ->
  show_ops (f_run pad f_start p) l = Some v -> good_ops v.
Proof.
  intros pad p o v H. assert (G : lists_good (f_h (f_run pad f_start p))).
  { assert (K : lists_good (f_h f_start)) by (intros [|n] w E; discriminate E). pose proof wff_start as Wf.
    unfold f_run. revert H K Wf. generalize f_start as s. induction p as [|c p IH]; intros s H K Wf; [exact K|].
    destruct H as [H H']. cbn [fold_left]. apply IH; [exact H'| |now apply step_ok]. now apply lists_step. }
  unfold show_ops. intros E. destruct (v_ops _ o) as [n|]; [|discriminate E]. exact (G n v E).
Qed.
Print Assumptions C113_refuted.
Print Assumptions C113_frame.
Print Assumptions C113_push.
Print Assumptions C113_new.
Print Assumptions C113_pop.
Print Assumptions C113_index.
Print Assumptions C113_member.
Print Assumptions C113_list_push.
Print Assumptions C113_list_pop.
Print Assumptions C113_partial.
Print Assumptions C113_list_partial.
(* a program that calls Set on a filter before it is pushed and after it is popped *)
Definition calm_program : list fstmt :=
  (two_filters ++ [OPop 2 0; ASet 2 [RStr "(x=3)"]; OPush 0 [QAF 2; QStr "sn:(y=2)"]; LNew 0; LPush 0 [UOp 0; UStr "delete=l:(z=1)"]; LDelim 0 true])%list.
Example C113_witness : forall pad,
  along pad calm f_start calm_program /\ along pad calm_list f_start calm_program /\
  option_map afos_string (show_ops (f_run pad f_start calm_program) 0) = Some "add=cn:(x=1) && cn:(x=3) && sn:(y=2);delete=l:(z=1)".
Proof.
  intros pad. split; [|split].
  - repeat (split; [exact I|]). split; [|repeat (split; [exact I|]); exact I].
    intros w n W (k & _ & H). vm_compute in W. injection W as <-. destruct H as [H|(o & l & m & N & M & H)]; [discriminate H|].
    destruct k as [|[|k]]; vm_compute in N; try discriminate. injection N as <- <-. destruct M as [<-|[]].
    destruct H as (j & [= <-] & [H|(a & q & _ & (t & _ & H))]); discriminate H.
  - repeat (split; [exact I|]). split; [|split; [|split; [|repeat (split; [exact I|]); exact I]]];
      intros w n W (k & _ & H); vm_compute in W; try discriminate W; injection W as <-;
      destruct H as [H|(o & l & m & N & _)]; try discriminate H; destruct k as [|k]; vm_compute in N; discriminate N.
  - destruct pad; vm_compute; reflexivity.
Qed.

(* ---- C114 ---- *)
(* False: a rule made from a list of operations is printed from the list, so its text
   changes when the list, one of its operations or one of their filters does. *)
Definition list_rule : list fstmt := (two_filters ++ [LNew 0; LPush 0 [UOp 0]; REqOps 0 0])%list.
Theorem C114_refuted :
  ~ (forall pad p r l q, let s := f_run pad f_start (p ++ [REqOps r l]) in
     along pad (fun s c => assigns s c <> Some (VRule r)) s q -> show_rule pad (f_run pad s q) r = show_rule pad s r) /\
  (* ... through a filter, an operation, the list *)
  (forall c, In c [ASet 0 [RStr "(x=9)"]; OPop 5 0; OPush 0 [QStr "sn:(y=2)"]; LPush 0 [UStr "delete=l:(z=1)"]; LPop 5 0] ->
     show_rule true (f_run true f_start (list_rule ++ [c])) 0 <> show_rule true (f_run true f_start list_rule) 0).
Proof.
  split.
  - intros H. specialize (H true (two_filters ++ [LNew 0; LPush 0 [UOp 0]])%list 0%nat 0%nat [LPop 5 0]). cbn zeta in H.
    assert (E : show_rule true (f_run true (f_run true f_start ((two_filters ++ [LNew 0; LPush 0 [UOp 0]]) ++ [REqOps 0 0])) [LPop 5 0]) 0 <>
                show_rule true (f_run true f_start ((two_filters ++ [LNew 0; LPush 0 [UOp 0]]) ++ [REqOps 0 0])) 0) by (vm_compute; discriminate).
    apply E, H. split; [discriminate|exact I].
  - intros c [<-|[<-|[<-|[<-|[<-|[]]]]]]; vm_compute; discriminate.
Qed.
Lemma keep_rule pad r : forall q s, along pad (fun s c => assigns s c <> Some (VRule r)) s q -> v_rule (f_run pad s q) r = v_rule s r.
Proof.
  unfold f_run. induction q as [|c q IH]; intros s H; [reflexivity|]. destruct H as [N H]. cbn [fold_left]. rewrite (IH _ H).
  now apply (step_vars pad s c).
Qed.
Lemma keep_ops pad l : forall q s, along pad (fun s c => assigns s c <> Some (VOps l)) s q -> v_ops (f_run pad s q) l = v_ops s l.
Proof.
  unfold f_run. induction q as [|c q IH]; intros s H; [reflexivity|]. destruct H as [N H]. cbn [fold_left]. rewrite (IH _ H).
  now apply (step_vars pad s c).
Qed.
(* a rule made from a single operation keeps the text the operation had, whatever follows *)
Theorem C114_operation : forall pad p r o q, let s := f_run pad f_start p in
  along pad (fun s c => assigns s c <> Some (VRule r)) (f_step pad s (REqOp r o)) q ->
  show_rule pad (f_run pad s (REqOp r o :: q)) r = afo_Eq pad (show_op s o).
Proof.
  intros pad p r o q s H. unfold show_rule. cbn [f_run fold_left]. change (fold_left (f_step pad) q) with (fun s => f_run pad s q). cbn beta.
  rewrite (keep_rule _ _ _ _ H). cbn [f_step let_rule v_rule]. rewrite upd_same. unfold show_op. destruct (op_at _ _); reflexivity.
Qed.
(* a rule made from a list always shows what the list is now *)
Theorem C114_list : forall pad p r l q, let s := f_run pad f_start p in
  along pad (fun s c => assigns s c <> Some (VRule r)) (f_step pad s (REqOps r l)) q ->
  along pad (fun s c => assigns s c <> Some (VOps l)) (f_step pad s (REqOps r l)) q ->
  show_rule pad (f_run pad s (REqOps r l :: q)) r = afos_Eq pad (show_ops (f_run pad s (REqOps r l :: q)) l).
Proof.
  intros pad p r l q s H K. unfold show_rule, show_ops. cbn [f_run fold_left]. change (fold_left (f_step pad) q) with (fun s => f_run pad s q). cbn beta.
  rewrite (keep_rule _ _ _ _ H), (keep_ops _ _ _ _ K). cbn [f_step let_rule v_rule v_ops]. rewrite upd_same. destruct (v_ops s l); reflexivity.
Qed.
(* hence it keeps its text as long as nothing it is made of is changed *)
Theorem C114_frame : forall pad p r c, let s := f_run pad f_start p in
  assigns s c <> Some (VRule r) -> (forall w, changes s c = Some w -> ~ part s (VRule r) w) ->
  show_rule pad (f_step pad s c) r = show_rule pad s r.
Proof.
  intros pad p r c s A B. apply (frame_view pad s c (VRule r)); [apply start_ok|]. intros [H|(w & W & H)]; [now apply A|now apply (B w)].
Qed.
Print Assumptions C114_refuted.
Print Assumptions C114_operation.
Print Assumptions C114_list.
Print Assumptions C114_frame.
Example C114_witness :
  map (fun q => let s := f_run true f_start (list_rule ++ REqOp 1 0 :: q) in
                (option_map cond_string (show_rule true s 0), option_map cond_string (show_rule true s 1)))
    [[]; [ASet 0 [RStr "(x=9)"]]; [LPop 5 0; LPush 0 [UStr "add=l:(z=1)"]]]
  = [(Some "( targattrfilters = ""add=cn:(x=1) && cn:(x=2)"" )", Some "( targattrfilters = ""add=cn:(x=1) && cn:(x=2)"" )");
     (Some "( targattrfilters = ""add=cn:(x=9) && cn:(x=2)"" )", Some "( targattrfilters = ""add=cn:(x=1) && cn:(x=2)"" )");
     (Some "( targattrfilters = ""add=l:(z=1)"" )", Some "( targattrfilters = ""add=cn:(x=1) && cn:(x=2)"" )")].
Proof. vm_compute. reflexivity. Qed.

(* ---- C115 ---- *)
(* False: an attribute filter changes when Set is called on the search filter it was made
   from or that was read from it. *)
Theorem C115_refuted :
  ~ (forall pad p c a, let s := f_run pad f_start p in
     (forall b xs, c = ASet b xs -> v_af s b <> v_af s a) -> assigns s c <> Some (VAf a) ->
     show_af (f_step pad s c) a = show_af s a) /\
  show_af (f_run true f_start [FNew 0 ["(x=1)"]; ANew 0 [RStr "cn"; RSF 0]; FSet 0 "(x=2)"]) 0 = Some (Some "cn", Some "(x=2)") /\
  show_af (f_run true f_start [ANew 0 [RStr "cn"; RStr "(x=1)"]; FTake 0 0; FSet 0 "(x=2)"]) 0 = Some (Some "cn", Some "(x=2)").
Proof.
  split; [|split; vm_compute; reflexivity]. intros H.
  specialize (H true [FNew 0 ["(x=1)"]; ANew 0 [RStr "cn"; RSF 0]] (FSet 0 "(x=2)") 0%nat). cbn zeta in H.
  assert (E : show_af (f_step true (f_run true f_start [FNew 0 ["(x=1)"]; ANew 0 [RStr "cn"; RSF 0]]) (FSet 0 "(x=2)")) 0 <>
              show_af (f_run true f_start [FNew 0 ["(x=1)"]; ANew 0 [RStr "cn"; RSF 0]]) 0) by (vm_compute; discriminate).
  apply E, H; [intros; discriminate|]. vm_compute. discriminate.
Qed.
(* what can change it: an assignment, its own Set, Set on its search filter *)
Theorem C115_exact : forall pad p c a, let s := f_run pad f_start p in
  show_af (f_step pad s c) a <> show_af s a ->
  assigns s c = Some (VAf a) \/
  (exists b xs, c = ASet b xs /\ v_af s b = v_af s a) \/
  (exists x t n k q, c = FSet x t /\ v_sf s x = Some n /\ v_af s a = Some k /\ nth_error (h_af (f_h s)) k = Some (q, Some n)).
Proof.
  intros pad p c a s D. assert (Wf : wff s) by apply start_ok.
  assert (X : ~ ~ concerns s c (VAf a)) by (intros N; apply D; exact (frame_view pad s c (VAf a) Wf N)).
  assert (Y : changes s c = None \/ exists w, changes s c = Some w) by (destruct (changes s c); eauto).
  assert (P : forall w, {af_part (f_h s) (v_af s a) w} + {~ af_part (f_h s) (v_af s a) w}).
  { intros w. destruct (v_af s a) as [k|]; [|right; intros (n & [=] & _)]. destruct (nth_error (h_af (f_h s)) k) as [[q r]|] eqn:K.
    - destruct w as [n|n|n|n].
      + destruct r as [m|].
        * destruct (Nat.eq_dec m n) as [->|NE]; [left; exists k; split; [reflexivity|]; right; exists q, (Some n); split; [exact K|]; now exists n|].
          right. intros (j & [= <-] & [H|(b & t & N & (i & -> & [= ->]))]); [discriminate|]. rewrite K in N. now injection N.
        * right. intros (j & [= <-] & [H|(b & t & N & (i & -> & [= ->]))]); [discriminate|]. rewrite K in N. now injection N.
      + destruct (Nat.eq_dec n k) as [->|NE]; [left; exists k; auto|].
        right. intros (j & [= <-] & [[= H]|(b & t & N & (i & _ & H))]); [congruence|discriminate].
      + right. intros (j & _ & [H|(b & t & N & (i & _ & H))]); discriminate.
      + right. intros (j & _ & [H|(b & t & N & (i & _ & H))]); discriminate.
    - destruct w as [n|n|n|n]; try (right; intros (j & [= <-] & [H|(b & t & N & _)]); [discriminate|congruence]).
      destruct (Nat.eq_dec n k) as [->|NE]; [left; exists k; auto|].
      right. intros (j & [= <-] & [[= H]|(b & t & N & _)]); congruence. }
  assert (AD : assigns s c = Some (VAf a) \/ assigns s c <> Some (VAf a)).
  { destruct (assigns s c) as [[m|m|m|m|m]|]; try (right; discriminate). destruct (Nat.eq_dec m a) as [->|NE]; [now left|right; congruence]. }
  destruct AD as [AD|AD]; [now left|right].
  destruct Y as [Y|[w Y]]; [exfalso; apply X; intros [H|(w & W & _)]; congruence|].
  destruct (P w) as [Q|Q].
  2:{ exfalso. apply X. intros [H|(w' & W & H)]; [congruence|]. rewrite Y in W. injection W as <-. now apply Q. }
  destruct Q as (k & K & Q). destruct c; cbn [changes] in Y; try discriminate Y.
  - right. destruct (v_sf s x) as [n|] eqn:V; [|discriminate Y]. injection Y as <-.
    destruct Q as [Q|(b & q & N & (i & -> & [= <-]))]; [discriminate|]. now exists x, s0, n, k, b.
  - left. destruct (af_isZero _); [discriminate Y|]. destruct (v_af s a0) as [n|] eqn:V; [|discriminate Y]. injection Y as <-.
    destruct Q as [[= ->]|(b & q & N & (i & _ & H))]; [|discriminate]. exists a0, xs. split; [reflexivity|congruence].
  - exfalso. destruct (v_op s o); [|discriminate Y]. injection Y as <-. destruct Q as [Q|(b & q & N & (i & _ & H))]; discriminate.
  - exfalso. destruct (v_op s o); [|discriminate Y]. injection Y as <-. destruct Q as [Q|(b & q & N & (i & _ & H))]; discriminate.
  - exfalso. destruct (v_ops s p0); [|discriminate Y]. injection Y as <-. destruct Q as [Q|(b & q & N & (i & _ & H))]; discriminate.
  - exfalso. destruct (v_ops s p0); [|discriminate Y]. injection Y as <-. destruct Q as [Q|(b & q & N & (i & _ & H))]; discriminate.
  - exfalso. destruct (v_ops s p0); [|discriminate Y]. injection Y as <-. destruct Q as [Q|(b & q & N & (i & _ & H))]; discriminate.
Qed.
(* AF and Set compute what they do without sharing; Set reaches every variable that holds
   the filter, unless the filter is zero: then only its own *)
Theorem C115_set : forall pad p a b xs, let s := f_run pad f_start p in
  show_af (f_step pad s (ANew a xs)) a = AF (map (a_value s) xs) /\
  show_af (f_step pad s (ASet a xs)) a = af_set (show_af s a) (map (a_value s) xs) /\
  (v_af s b = v_af s a -> af_isZero (show_af s a) = false -> show_af (f_step pad s (ASet a xs)) b = af_set (show_af s a) (map (a_value s) xs)) /\
  (b <> a -> af_isZero (show_af s a) = true -> show_af (f_step pad s (ASet a xs)) b = show_af s b).
Proof.
  intros pad p a b xs s. assert (Wf : wff s) by apply start_ok.
  assert (NEW : forall x, show_af (let '(h1, c) := aset (v_sf s) (f_h s) (None, None) xs in
                 let_af (with_h s (add_af h1 c)) x (Some (List.length (h_af h1)))) x = AF (map (a_value s) xs)).
  { intros x. destruct (aset _ _ _ _) as [h1 c] eqn:N. destruct (aset_ok _ _ _ _ _ _ N (wf_h s Wf) (wf_sf s Wf) (okp_none _)) as (_ & _ & _ & _ & _ & _ & I).
    unfold show_af. cbn [let_af with_h f_h v_af]. rewrite upd_same, (af_at_cell _ _ c) by apply rd_last.
    change (af_cell (add_af h1 c) c) with (af_cell h1 c). rewrite I. reflexivity. }
  assert (OLD : forall x, v_af s x = v_af s a -> af_isZero (show_af s a) = false -> show_af (f_step pad s (ASet a xs)) x = af_set (show_af s a) (map (a_value s) xs)).
  { clear NEW. intros x E Z. unfold show_af in *. destruct (step_vars pad s (ASet a xs)) as (_ & S2 & _). rewrite S2; [|cbn [assigns]; unfold show_af; now rewrite Z].
    rewrite E. cbn [f_step]. rewrite Z. destruct (v_af s a) as [n|] eqn:V; [|discriminate Z].
    destruct (nth_error (h_af (f_h s)) n) as [c|] eqn:C; [|unfold af_at, rd in Z; now rewrite C in Z].
    destruct (aset _ _ _ _) as [h1 c1] eqn:A.
    assert (OK : okp (h_sf (f_h s)) (snd c)) by (destruct c as [d q]; exact (w_af _ (wf_h s Wf) _ _ _ C)).
    destruct (aset_ok _ _ _ _ _ _ A (wf_h s Wf) (wf_sf s Wf) OK) as (A1 & G & O & HA & HO & _ & I). cbn [with_h f_h].
    rewrite (af_at_cell _ n c1) by (cbn [set_af h_af]; apply (rd_wr (h_af h1)); rewrite HA; now apply nth_some_lt in C).
    change (af_cell (set_af h1 n c1) c1) with (af_cell h1 c1). rewrite I. rewrite (af_at_cell _ _ _ C) in Z |- *. unfold af_set. rewrite Z. reflexivity. }
  split; [|split; [|split]].
  - exact (NEW a).
  - destruct (af_isZero (show_af s a)) eqn:Z; [|now apply OLD]. cbn [f_step]. change (af_at (f_h s) (v_af s a)) with (show_af s a). rewrite Z, NEW.
    unfold af_set. now rewrite Z.
  - intros E Z. now apply OLD.
  - intros N Z. apply (frame_view pad s (ASet a xs) (VAf b) Wf). unfold concerns. cbn [assigns changes]. rewrite Z.
    intros [H|(w & W & _)]; [congruence|discriminate].
Qed.
(* the search filter read from an attribute filter is the one it holds, and stays it *)
Theorem C115_take : forall pad p x a t at' f, let s := f_run pad f_start p in
  show_af s a = Some (at', Some f) -> af_isZero (show_af s a) = false ->
  show_sf (f_step pad s (FTake x a)) x = Some f /\
  show_af (f_run pad s [FTake x a; FSet x t]) a = Some (at', sf_set (Some f) t) /\
  show_sf (f_run pad s [FTake x a; FSet x t]) x = sf_set (Some f) t.
Proof.
  intros pad p x a t at' f s E Z. assert (Wf : wff s) by apply start_ok. unfold show_af in *.
  destruct (v_af s a) as [n|] eqn:V; [|discriminate]. unfold af_at, rd in E. destruct (nth_error (h_af (f_h s)) n) as [[b q]|] eqn:C; [|discriminate].
  injection E as -> E. destruct q as [m|]; [|discriminate E].
  assert (K : nth_error (h_sf (f_h s)) m = Some f) by exact E.
  assert (T : v_sf (f_step pad s (FTake x a)) x = Some m).
  { cbn [f_step let_sf v_sf]. rewrite upd_same, V, Z. cbn [rd]. now rewrite C. }
  assert (S1 : f_h (f_run pad s [FTake x a; FSet x t]) = set_sf (f_h s) m (if (String.length t =? 0)%nat then f else t) /\
               v_sf (f_run pad s [FTake x a; FSet x t]) x = Some m /\ v_af (f_run pad s [FTake x a; FSet x t]) a = Some n).
  { cbn [f_run fold_left]. set (s1 := f_step pad s (FTake x a)) in *. cbn [f_step]. rewrite T. change (f_h s1) with (f_h s).
    unfold sf_at at 1 2 3. cbn [rd]. rewrite K. unfold sf_set. cbn [with_h f_h v_sf v_af]. split; [reflexivity|]. split; [exact T|exact V]. }
  destruct S1 as (S1 & S2 & S3). split; [|split].
  - unfold show_sf. rewrite T. exact K.
  - rewrite S1, S3. rewrite (af_at_cell _ n (at', Some m)) by exact C. unfold af_cell, sf_at, sf_set. cbn [fst snd set_sf h_sf].
    rewrite rd_wr by now apply nth_some_lt in K. reflexivity.
  - unfold show_sf. rewrite S1, S2. unfold sf_at, sf_set. cbn [set_sf h_sf]. now rewrite rd_wr by now apply nth_some_lt in K.
Qed.
Print Assumptions C115_refuted.
Print Assumptions C115_exact.
Print Assumptions C115_set.
Print Assumptions C115_take.
Example C115_witness :
  let s := f_run true f_start [ANew 0 [RStr "cn"; RStr "(x=1)"]; ACopy 1 0; ACopy 3 2; ASet 0 [RStr "(x=2)"]; ASet 2 [RStr "sn"]] in
  map (show_af s) [0; 1; 2; 3]%nat = [Some (Some "cn", Some "(x=2)"); Some (Some "cn", Some "(x=2)"); Some (Some "sn", None); None].
Proof. vm_compute. reflexivity. Qed.
