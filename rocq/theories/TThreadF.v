(* C142: under every schedule, goroutines that change no filter, operation or list of
   operations they have in common see what they would see alone. *)
From Coq Require Import String Ascii List PeanoNat NArith ZArith Bool Lia.
From Verif Require Import GoStr MMisc MLists MAttr MFilter MRule MMeth MHeap MFShare SFShare TFShare SThreads PThreads.
Import ListNotations.

Definition frel := cell -> cell -> Prop.
Definition SF (R : frel) : rel := fun n m => R (CSf n) (CSf m).
Definition AF (R : frel) : rel := fun n m => R (CAf n) (CAf m).
Definition OP (R : frel) : rel := fun n m => R (COp n) (COp m).
Definition OS (R : frel) : rel := fun n m => R (COps n) (COps m).
Definition mk4 (A B C D : rel) : frel := fun o p =>
  match o, p with CSf n, CSf m => A n m | CAf n, CAf m => B n m | COp n, COp m => C n m | COps n, COps m => D n m | _, _ => False end.
Definition arel (R : frel) (c d : attype * ptr) : Prop := fst c = fst d /\ orel (SF R) (snd c) (snd d).
Definition mrel {K} (R : rel) (c d : K * list nat) : Prop := fst c = fst d /\ Forall2 R (snd c) (snd d).
Record hs (R : frel) (h t : heaps) : Prop := MkHS {
  hs_kind : forall o p, R o p -> mk4 (SF R) (AF R) (OP R) (OS R) o p;
  hs_sf : hrel (SF R) eq (h_sf h) (h_sf t);
  hs_af : hrel (AF R) (arel R) (h_af h) (h_af t);
  hs_op : hrel (OP R) (mrel (AF R)) (h_op h) (h_op t);
  hs_ops : hrel (OS R) (mrel (OP R)) (h_ops h) (h_ops t) }.
Definition hlive (h : heaps) (o : cell) : Prop :=
  match o with CSf n => (n < List.length (h_sf h))%nat | CAf n => (n < List.length (h_af h))%nat
  | COp n => (n < List.length (h_op h))%nat | COps n => (n < List.length (h_ops h))%nat end.
Definition sub (R R' : frel) : Prop := forall o p, R o p -> R' o p.
Definition hok (R : frel) (t : heaps) (R' : frel) (h' t' : heaps) : Prop :=
  hs R' h' t' /\ sub R R' /\ (forall o p, R' o p -> R o p \/ ~ hlive t p) /\ (forall o, hlive t o -> hlive t' o).
Lemma hok_refl R h t : hs R h t -> hok R t R h t.
Proof. intros S. split; [exact S|]. split; [now intros o p|]. auto. Qed.
Lemma hok_trans R t R1 h1 t1 R2 h2 t2 : hok R t R1 h1 t1 -> hok R1 t1 R2 h2 t2 -> hok R t R2 h2 t2.
Proof.
  intros (S1 & U1 & N1 & L1) (S2 & U2 & N2 & L2). split; [exact S2|]. split; [intros o p X; auto|]. split; [|auto].
  intros o p X. destruct (N2 o p X) as [Y|Y]; [auto|]. right. intros Z. apply Y. auto.
Qed.
Lemma arel_mono R R' c d : sub R R' -> arel R c d -> arel R' c d.
Proof. intros U [E P]. split; [exact E|]. eapply orel_mono; [exact P|]. intros n m. apply U. Qed.
Lemma F2_mono (R R' : rel) l l' : (forall n m, R n m -> R' n m) -> Forall2 R l l' -> Forall2 R' l l'.
Proof. intros U. induction 1; constructor; auto. Qed.
Lemma mrel_mono {K} (R R' : rel) (c d : K * list nat) : (forall n m, R n m -> R' n m) -> mrel R c d -> mrel R' c d.
Proof. intros U [E P]. split; [exact E|]. eapply F2_mono; eauto. Qed.
Lemma kinds A B C D o p : mk4 A B C D o p -> mk4 (SF (mk4 A B C D)) (AF (mk4 A B C D)) (OP (mk4 A B C D)) (OS (mk4 A B C D)) o p.
Proof. now destruct o, p. Qed.
Lemma add_sf_sim R h t c : hs R h t -> exists R', hok R t R' (add_sf h c) (add_sf t c) /\ SF R' (List.length (h_sf h)) (List.length (h_sf t)).
Proof.
  intros [K A B C D]. set (R' := mk4 (radd (SF R) (List.length (h_sf h)) (List.length (h_sf t))) (AF R) (OP R) (OS R)).
  assert (U : sub R R') by (intros o p X; apply K in X; destruct o, p; try exact X; now apply radd_old).
  exists R'. split; [|apply radd_new]. split; [|split; [exact U|split]].
  - constructor; cbn [add_sf h_sf h_af h_op h_ops].
    + apply kinds.
    + now apply (hrel_snoc (SF R) eq).
    + eapply hrel_mono; [exact B|]. intros d e. now apply arel_mono.
    + exact C.
    + exact D.
  - intros o p X. destruct o as [n|n|n|n], p as [m|m|m|m]; try destruct X; auto. right. cbn. destruct H as [_ ->]. lia.
  - intros [n|n|n|n]; cbn [hlive add_sf h_sf h_af h_op h_ops]; rewrite ?app_length; lia.
Qed.
Lemma add_af_sim R h t c d : hs R h t -> arel R c d -> exists R', hok R t R' (add_af h c) (add_af t d) /\ AF R' (List.length (h_af h)) (List.length (h_af t)).
Proof.
  intros [K A B C D] E. set (R' := mk4 (SF R) (radd (AF R) (List.length (h_af h)) (List.length (h_af t))) (OP R) (OS R)).
  assert (U : sub R R') by (intros o p X; apply K in X; destruct o, p; try exact X; now apply radd_old).
  exists R'. split; [|apply radd_new]. split; [|split; [exact U|split]].
  - constructor; cbn [add_af h_sf h_af h_op h_ops].
    + apply kinds.
    + exact A.
    + apply (hrel_snoc (AF R) (arel R)); auto.
    + eapply hrel_mono; [exact C|]. intros x y. apply mrel_mono. intros; now apply radd_old.
    + exact D.
  - intros o p X. destruct o as [n|n|n|n], p as [m|m|m|m]; try destruct X; auto. right. cbn. destruct H as [_ ->]. lia.
  - intros [n|n|n|n]; cbn [hlive add_af h_sf h_af h_op h_ops]; rewrite ?app_length; lia.
Qed.
Lemma add_op_sim R h t c d : hs R h t -> mrel (AF R) c d -> exists R', hok R t R' (add_op h c) (add_op t d) /\ OP R' (List.length (h_op h)) (List.length (h_op t)).
Proof.
  intros [K A B C D] E. set (R' := mk4 (SF R) (AF R) (radd (OP R) (List.length (h_op h)) (List.length (h_op t))) (OS R)).
  assert (U : sub R R') by (intros o p X; apply K in X; destruct o, p; try exact X; now apply radd_old).
  exists R'. split; [|apply radd_new]. split; [|split; [exact U|split]].
  - constructor; cbn [add_op h_sf h_af h_op h_ops].
    + apply kinds.
    + exact A.
    + exact B.
    + apply (hrel_snoc (OP R) (mrel (AF R))); auto.
    + eapply hrel_mono; [exact D|]. intros x y. apply mrel_mono. intros; now apply radd_old.
  - intros o p X. destruct o as [n|n|n|n], p as [m|m|m|m]; try destruct X; auto. right. cbn. destruct H as [_ ->]. lia.
  - intros [n|n|n|n]; cbn [hlive add_op h_sf h_af h_op h_ops]; rewrite ?app_length; lia.
Qed.
Lemma add_ops_sim R h t c d : hs R h t -> mrel (OP R) c d -> exists R', hok R t R' (add_ops h c) (add_ops t d) /\ OS R' (List.length (h_ops h)) (List.length (h_ops t)).
Proof.
  intros [K A B C D] E. set (R' := mk4 (SF R) (AF R) (OP R) (radd (OS R) (List.length (h_ops h)) (List.length (h_ops t)))).
  assert (U : sub R R') by (intros o p X; apply K in X; destruct o, p; try exact X; now apply radd_old).
  exists R'. split; [|apply radd_new]. split; [|split; [exact U|split]].
  - constructor; cbn [add_ops h_sf h_af h_op h_ops].
    + apply kinds.
    + exact A.
    + exact B.
    + exact C.
    + apply (hrel_snoc (OS R) (mrel (OP R))); auto.
  - intros o p X. destruct o as [n|n|n|n], p as [m|m|m|m]; try destruct X; auto. right. cbn. destruct H as [_ ->]. lia.
  - intros [n|n|n|n]; cbn [hlive add_ops h_sf h_af h_op h_ops]; rewrite ?app_length; lia.
Qed.
Lemma set_sf_sim R h t n m c : hs R h t -> SF R n m -> hs R (set_sf h n c) (set_sf t m c).
Proof. intros [K A B C D] X. constructor; cbn [set_sf h_sf h_af h_op h_ops]; auto. now apply hrel_wr. Qed.
Lemma set_af_sim R h t n m c d : hs R h t -> AF R n m -> arel R c d -> hs R (set_af h n c) (set_af t m d).
Proof. intros [K A B C D] X. constructor; cbn [set_af h_sf h_af h_op h_ops]; auto. now apply hrel_wr. Qed.
Lemma set_op_sim R h t n m c d : hs R h t -> OP R n m -> mrel (AF R) c d -> hs R (set_op h n c) (set_op t m d).
Proof. intros [K A B C D] X. constructor; cbn [set_op h_sf h_af h_op h_ops]; auto. now apply hrel_wr. Qed.
Lemma set_ops_sim R h t n m c d : hs R h t -> OS R n m -> mrel (OP R) c d -> hs R (set_ops h n c) (set_ops t m d).
Proof. intros [K A B C D] X. constructor; cbn [set_ops h_sf h_af h_op h_ops]; auto. now apply hrel_wr. Qed.
Lemma set_live_sf t m c o : hlive t o -> hlive (set_sf t m c) o. Proof. destruct o; cbn; now rewrite ?wr_len. Qed.
Lemma set_live_af t m c o : hlive t o -> hlive (set_af t m c) o. Proof. destruct o; cbn; now rewrite ?wr_len. Qed.
Lemma set_live_op t m c o : hlive t o -> hlive (set_op t m c) o. Proof. destruct o; cbn; now rewrite ?wr_len. Qed.
Lemma set_live_ops t m c o : hlive t o -> hlive (set_ops t m c) o. Proof. destruct o; cbn; now rewrite ?wr_len. Qed.

(* what is read *)
Lemma sf_sim R h t p q : hs R h t -> orel (SF R) p q -> sf_at h p = sf_at t q.
Proof. intros S [|n m K]; [reflexivity|]. unfold sf_at, rd. destruct (proj1 (hs_sf _ _ _ S) n m K) as (d & e & -> & -> & ->). reflexivity. Qed.
Lemma af_sim R h t p q : hs R h t -> orel (AF R) p q -> af_at h p = af_at t q.
Proof.
  intros S [|n m K]; [reflexivity|]. unfold af_at, rd. destruct (proj1 (hs_af _ _ _ S) n m K) as ([a x] & [b y] & -> & -> & E & P). cbn [fst snd] in E, P. subst b. now rewrite (sf_sim R h t x y S P).
Qed.
Lemma afs_sim R h t l l' : hs R h t -> Forall2 (AF R) l l' -> map (fun n => af_at h (Some n)) l = map (fun n => af_at t (Some n)) l'.
Proof. intros S. induction 1 as [|n m l l' K F IH]; [reflexivity|]. cbn [map]. f_equal; [|exact IH]. apply (af_sim R); [exact S|now constructor]. Qed.
Lemma op_sim R h t p q : hs R h t -> orel (OP R) p q -> op_at h p = op_at t q.
Proof.
  intros S [|n m K]; [reflexivity|]. unfold op_at, rd. destruct (proj1 (hs_op _ _ _ S) n m K) as ([a x] & [b y] & -> & -> & E & P). cbn [fst snd] in E, P. subst b. now rewrite (afs_sim R h t x y S P).
Qed.
Lemma opv_sim R h t n m : hs R h t -> OP R n m -> op_val h n = op_val t m.
Proof. intros S K. unfold op_val. rewrite (op_sim R h t (Some n) (Some m) S); [reflexivity|now constructor]. Qed.
Lemma opvs_sim R h t l l' : hs R h t -> Forall2 (OP R) l l' -> map (op_val h) l = map (op_val t) l'.
Proof. intros S. induction 1 as [|n m l l' K F IH]; [reflexivity|]. cbn [map]. f_equal; [|exact IH]. now apply (opv_sim R). Qed.
Lemma ops_sim R h t p q : hs R h t -> orel (OS R) p q -> ops_at h p = ops_at t q.
Proof.
  intros S [|n m K]; [reflexivity|]. unfold ops_at, rd. destruct (proj1 (hs_ops _ _ _ S) n m K) as ([a x] & [b y] & -> & -> & E & P). cbn [fst snd] in E, P. subst b. now rewrite (opvs_sim R h t x y S P).
Qed.

(* what is made *)
Lemma new_sf_sim R h t v : hs R h t -> exists R', hok R t R' (fst (new_sf h v)) (fst (new_sf t v)) /\ orel (SF R') (snd (new_sf h v)) (snd (new_sf t v)).
Proof.
  intros S. destruct v as [s|]; cbn [new_sf fst snd]; [|exists R; split; [now apply hok_refl|constructor]].
  destruct (add_sf_sim R h t s S) as (R' & O & X). exists R'. split; [exact O|]. now constructor.
Qed.
Lemma new_af_sim R h t v : hs R h t -> exists R', hok R t R' (fst (new_af h v)) (fst (new_af t v)) /\ orel (AF R') (snd (new_af h v)) (snd (new_af t v)).
Proof.
  intros S. destruct v as [[a f]|]; cbn [new_af]; [|exists R; split; [now apply hok_refl|constructor]].
  destruct (new_sf_sim R h t f S) as (R1 & O1 & X1). destruct (new_sf h f) as [h1 p], (new_sf t f) as [t1 q]. cbn [fst snd] in *.
  destruct (add_af_sim R1 h1 t1 (a, p) (a, q) (proj1 O1)) as (R2 & O2 & X2); [now split|]. exists R2. split; [eapply hok_trans; eassumption|]. now constructor.
Qed.
Lemma new_afs_sim : forall l R h t, hs R h t -> exists R', hok R t R' (fst (new_afs h l)) (fst (new_afs t l)) /\ Forall2 (AF R') (snd (new_afs h l)) (snd (new_afs t l)).
Proof.
  induction l as [|v l IH]; intros R h t S; cbn [new_afs]; [exists R; split; [now apply hok_refl|constructor]|].
  destruct (new_af_sim R h t v S) as (R1 & O1 & X1). destruct (new_af h v) as [h1 p], (new_af t v) as [t1 q]. cbn [fst snd] in *.
  destruct (IH R1 h1 t1 (proj1 O1)) as (R2 & O2 & X2). destruct (new_afs h1 l) as [h2 r], (new_afs t1 l) as [t2 r']. cbn [fst snd] in *.
  exists R2. split; [eapply hok_trans; eassumption|]. destruct X1 as [|n m K]; [exact X2|]. constructor; [|exact X2]. now apply O2.
Qed.
Lemma new_op_sim R h t v : hs R h t -> exists R', hok R t R' (fst (new_op h v)) (fst (new_op t v)) /\ OP R' (snd (new_op h v)) (snd (new_op t v)).
Proof.
  intros S. unfold new_op. destruct (new_afs_sim (afo_mem v) R h t S) as (R1 & O1 & X1). destruct (new_afs h (afo_mem v)) as [h1 l], (new_afs t (afo_mem v)) as [t1 l']. cbn [fst snd] in *.
  destruct (add_op_sim R1 h1 t1 (afo_op v, l) (afo_op v, l') (proj1 O1)) as (R2 & O2 & X2); [now split|]. exists R2. split; [eapply hok_trans; eassumption|exact X2].
Qed.
Lemma aset_sim sv sw : forall xs R h t c d, hs R h t -> arel R c d -> (forall x, In (VSf x) (flat_map aarg_vars xs) -> orel (SF R) (sv x) (sw x)) ->
  exists R', hok R t R' (fst (aset sv h c xs)) (fst (aset sw t d xs)) /\ arel R' (snd (aset sv h c xs)) (snd (aset sw t d xs)).
Proof.
  induction xs as [|x xs IH]; intros R h t c d S E V; [exists R; split; [now apply hok_refl|exact E]|].
  unfold aset. cbn [fold_left]. cbn [flat_map] in V.
  assert (One : exists R1, hok R t R1 (fst (aset1 sv (h, c) x)) (fst (aset1 sw (t, d) x)) /\ arel R1 (snd (aset1 sv (h, c) x)) (snd (aset1 sw (t, d) x))).
  { destruct x as [s|a|y|]; cbn [aset1].
    - destruct (isIdentifier s); [exists R; split; [now apply hok_refl|split; [reflexivity|apply E]]|].
      destruct (new_sf_sim R h t (Filter [s]) S) as (R1 & O1 & X1). destruct (new_sf h (Filter [s])) as [h1 p], (new_sf t (Filter [s])) as [t1 q]. cbn [fst snd] in *.
      exists R1. split; [exact O1|]. split; [apply E|exact X1].
    - exists R. split; [now apply hok_refl|]. split; [reflexivity|apply E].
    - exists R. split; [now apply hok_refl|]. split; [apply E|]. apply V. apply in_or_app. left. now left.
    - exists R. split; [now apply hok_refl|exact E]. }
  destruct One as (R1 & O1 & E1). destruct (aset1 sv (h, c) x) as [h1 c1], (aset1 sw (t, d) x) as [t1 d1]. cbn [fst snd] in O1, E1.
  destruct (IH R1 h1 t1 c1 d1 (proj1 O1) E1) as (R2 & O2 & E2).
  { intros y Y. eapply orel_mono; [apply V; apply in_or_app; now right|]. intros n m. apply O1. }
  exists R2. split; [eapply hok_trans; eassumption|exact E2].
Qed.
Lemma opush_ref_sim R h t l l' p q : hs R h t -> Forall2 (AF R) l l' -> orel (AF R) p q -> Forall2 (AF R) (opush_ref h l p) (opush_ref t l' q).
Proof.
  intros S F [|n m K]; [exact F|]. unfold opush_ref. rewrite (afs_sim R h t l l' S F), (af_sim R h t (Some n) (Some m) S) by (now constructor).
  destruct (afo_policy _ _); [|exact F]. apply Forall2_app; [exact F|]. repeat constructor. exact K.
Qed.
Lemma opush_sim av aw : forall xs R h t c d, hs R h t -> mrel (AF R) c d -> (forall x, In (VAf x) (flat_map oparg_vars xs) -> orel (AF R) (av x) (aw x)) ->
  exists R', hok R t R' (fst (opush av h c xs)) (fst (opush aw t d xs)) /\ mrel (AF R') (snd (opush av h c xs)) (snd (opush aw t d xs)).
Proof.
  induction xs as [|x xs IH]; intros R h t c d S E V; [exists R; split; [now apply hok_refl|exact E]|].
  unfold opush. cbn [fold_left]. cbn [flat_map] in V.
  assert (One : exists R1, hok R t R1 (fst (opush1 av (h, c) x)) (fst (opush1 aw (t, d) x)) /\ mrel (AF R1) (snd (opush1 av (h, c) x)) (snd (opush1 aw (t, d) x))).
  { destruct c as [o l], d as [o' l']. destruct E as [E F]. cbn [fst snd] in E, F. subst o'. destruct x as [s|n|a|]; cbn [opush1].
    - destruct (parseAttributeFilter s) as [v|]; [|exists R; split; [now apply hok_refl|now split]].
      destruct (new_af_sim R h t v S) as (R1 & O1 & X1). destruct (new_af h v) as [h1 p], (new_af t v) as [t1 q]. cbn [fst snd] in *.
      exists R1. split; [exact O1|]. split; [reflexivity|]. cbn [snd]. apply opush_ref_sim; [apply O1| |exact X1]. eapply F2_mono; [|exact F]. intros n m. apply O1.
    - exists R. split; [now apply hok_refl|]. now split.
    - exists R. split; [now apply hok_refl|]. split; [reflexivity|]. cbn [fst snd]. apply opush_ref_sim; auto. apply V. apply in_or_app. left. now left.
    - exists R. split; [now apply hok_refl|now split]. }
  destruct One as (R1 & O1 & E1). destruct (opush1 av (h, c) x) as [h1 c1], (opush1 aw (t, d) x) as [t1 d1]. cbn [fst snd] in O1, E1.
  destruct (IH R1 h1 t1 c1 d1 (proj1 O1) E1) as (R2 & O2 & E2).
  { intros y Y. eapply orel_mono; [apply V; apply in_or_app; now right|]. intros n m. apply O1. }
  exists R2. split; [eapply hok_trans; eassumption|exact E2].
Qed.
Lemma lpush_ref_sim R h t l l' p q : hs R h t -> Forall2 (OP R) l l' -> orel (OP R) p q -> Forall2 (OP R) (lpush_ref h l p) (lpush_ref t l' q).
Proof.
  intros S F [|n m K]; [exact F|]. unfold lpush_ref. rewrite (opvs_sim R h t l l' S F), (opv_sim R h t n m S K).
  destruct (afos_policy _ _); [|exact F]. apply Forall2_app; [exact F|]. repeat constructor. exact K.
Qed.
Lemma lpush_sim ov ow : forall xs R h t c d, hs R h t -> mrel (OP R) c d -> (forall x, In (VOp x) (flat_map opsarg_vars xs) -> orel (OP R) (ov x) (ow x)) ->
  exists R', hok R t R' (fst (lpush ov h c xs)) (fst (lpush ow t d xs)) /\ mrel (OP R') (snd (lpush ov h c xs)) (snd (lpush ow t d xs)).
Proof.
  induction xs as [|x xs IH]; intros R h t c d S E V; [exists R; split; [now apply hok_refl|exact E]|].
  unfold lpush. cbn [fold_left]. cbn [flat_map] in V.
  assert (One : exists R1, hok R t R1 (fst (lpush1 ov (h, c) x)) (fst (lpush1 ow (t, d) x)) /\ mrel (OP R1) (snd (lpush1 ov (h, c) x)) (snd (lpush1 ow (t, d) x))).
  { destruct c as [o l], d as [o' l']. destruct E as [E F]. cbn [fst snd] in E, F. subst o'. destruct x as [s|a|]; cbn [lpush1].
    - destruct (parseAFO s) as [v|]; [|exists R; split; [now apply hok_refl|now split]]. destruct (0 <? _)%nat; [|exists R; split; [now apply hok_refl|now split]].
      destruct (new_op_sim R h t v S) as (R1 & O1 & X1). destruct (new_op h v) as [h1 p], (new_op t v) as [t1 q]. cbn [fst snd] in *.
      exists R1. split; [exact O1|]. split; [reflexivity|]. cbn [snd]. apply lpush_ref_sim; [apply O1| |now constructor]. eapply F2_mono; [|exact F]. intros n m. apply O1.
    - exists R. split; [now apply hok_refl|]. split; [reflexivity|]. cbn [fst snd]. apply lpush_ref_sim; auto. apply V. apply in_or_app. left. now left.
    - exists R. split; [now apply hok_refl|now split]. }
  destruct One as (R1 & O1 & E1). destruct (lpush1 ov (h, c) x) as [h1 c1], (lpush1 ow (t, d) x) as [t1 d1]. cbn [fst snd] in O1, E1.
  destruct (IH R1 h1 t1 c1 d1 (proj1 O1) E1) as (R2 & O2 & E2).
  { intros y Y. eapply orel_mono; [apply V; apply in_or_app; now right|]. intros n m. apply O1. }
  exists R2. split; [eapply hok_trans; eassumption|exact E2].
Qed.

(* statements *)
Inductive erel (R : frel) : held -> held -> Prop :=
| E_none : erel R HNone HNone
| E_text r : erel R (HText r) (HText r)
| E_ops n m : OS R n m -> erel R (HOps n) (HOps m).
Record fsim (V : fvar -> Prop) (R : frel) (s t : fstate) : Prop := MkFSim {
  fs_wf : wff s /\ wff t;
  fs_h : hs R (f_h s) (f_h t);
  fs_sf : forall x, V (VSf x) -> orel (SF R) (v_sf s x) (v_sf t x);
  fs_af : forall x, V (VAf x) -> orel (AF R) (v_af s x) (v_af t x);
  fs_op : forall x, V (VOp x) -> orel (OP R) (v_op s x) (v_op t x);
  fs_ops : forall x, V (VOps x) -> orel (OS R) (v_ops s x) (v_ops t x);
  fs_rule : forall x, V (VRule x) -> erel R (v_rule s x) (v_rule t x) }.
(* the same without the conditions on references, which every statement keeps *)
Record psim (V : fvar -> Prop) (R : frel) (s t : fstate) : Prop := MkPSim {
  ps_h : hs R (f_h s) (f_h t);
  ps_sf : forall x, V (VSf x) -> orel (SF R) (v_sf s x) (v_sf t x);
  ps_af : forall x, V (VAf x) -> orel (AF R) (v_af s x) (v_af t x);
  ps_op : forall x, V (VOp x) -> orel (OP R) (v_op s x) (v_op t x);
  ps_ops : forall x, V (VOps x) -> orel (OS R) (v_ops s x) (v_ops t x);
  ps_rule : forall x, V (VRule x) -> erel R (v_rule s x) (v_rule t x) }.
Definition flive (s : fstate) (o : cell) : Prop := hlive (f_h s) o.
Definition pok (V : fvar -> Prop) (R : frel) (t s' t' : fstate) : Prop := exists R', psim V R' s' t' /\ forall n m, R' n m -> R n m \/ ~ flive t m.
Lemma with_h_sim V R s t R' h' t' : psim V R s t -> hok R (f_h t) R' h' t' -> psim V R' (with_h s h') (with_h t t').
Proof.
  intros [H A B C D E] (S & U & _ & _). constructor; cbn [with_h f_h v_sf v_af v_op v_ops v_rule]; [exact S| | | | |]; intros x X.
  1: eapply orel_mono; [now apply A|intros n m; apply U].
  1: eapply orel_mono; [now apply B|intros n m; apply U].
  1: eapply orel_mono; [now apply C|intros n m; apply U].
  1: eapply orel_mono; [now apply D|intros n m; apply U].
  destruct (E x X); constructor. now apply U.
Qed.
Lemma let_sf_sim V R s t x p q : psim V R s t -> orel (SF R) p q -> psim V R (let_sf s x p) (let_sf t x q).
Proof. intros [H A B C D E] P. constructor; cbn [let_sf f_h v_sf v_af v_op v_ops v_rule]; auto. intros y Y. unfold upd. destruct (y =? x)%nat; auto. Qed.
Lemma let_af_sim V R s t x p q : psim V R s t -> orel (AF R) p q -> psim V R (let_af s x p) (let_af t x q).
Proof. intros [H A B C D E] P. constructor; cbn [let_af f_h v_sf v_af v_op v_ops v_rule]; auto. intros y Y. unfold upd. destruct (y =? x)%nat; auto. Qed.
Lemma let_op_sim V R s t x p q : psim V R s t -> orel (OP R) p q -> psim V R (let_op s x p) (let_op t x q).
Proof. intros [H A B C D E] P. constructor; cbn [let_op f_h v_sf v_af v_op v_ops v_rule]; auto. intros y Y. unfold upd. destruct (y =? x)%nat; auto. Qed.
Lemma let_ops_sim V R s t x p q : psim V R s t -> orel (OS R) p q -> psim V R (let_ops s x p) (let_ops t x q).
Proof. intros [H A B C D E] P. constructor; cbn [let_ops f_h v_sf v_af v_op v_ops v_rule]; auto. intros y Y. unfold upd. destruct (y =? x)%nat; auto. Qed.
Lemma let_rule_sim V R s t x p q : psim V R s t -> erel R p q -> psim V R (let_rule s x p) (let_rule t x q).
Proof. intros [H A B C D E] P. constructor; cbn [let_rule f_h v_sf v_af v_op v_ops v_rule]; auto. intros y Y. unfold upd. destruct (y =? x)%nat; auto. Qed.
Lemma F2_nth (R : rel) l l' : Forall2 R l l' -> forall i, orel R (nth_error l i) (nth_error l' i).
Proof. induction 1 as [|n m l l' K F IH]; intros [|i]; cbn; try constructor; auto. Qed.
Lemma F2_rev (R : rel) l l' : Forall2 R l l' -> Forall2 R (rev l) (rev l').
Proof. induction 1 as [|n m l l' K F IH]; cbn; [constructor|]. apply Forall2_app; [exact IH|]. repeat constructor. exact K. Qed.
Lemma F2_removelast (R : rel) l l' : Forall2 R l l' -> Forall2 R (removelast l) (removelast l').
Proof. induction 1 as [|n m l l' K F IH]; cbn; [constructor|]. destruct F; [constructor|]. constructor; auto. Qed.
Lemma last_sim (R : rel) l l' : Forall2 R l l' -> orel R (last_ref l) (last_ref l').
Proof. intros F. unfold last_ref. apply F2_nth. now apply F2_rev. Qed.
Lemma pok_same V R t s' t' : psim V R s' t' -> pok V R t s' t'.
Proof. intros S. exists R. auto. Qed.
Lemma pok_h V R s t R' h' t' : psim V R s t -> hok R (f_h t) R' h' t' -> psim V R' (with_h s h') (with_h t t') /\ forall n m, R' n m -> R n m \/ ~ flive t m.
Proof. intros S O. split; [eapply with_h_sim; eassumption|]. apply O. Qed.
Lemma hok_set R t R1 h1 t1 h2 t2 : hok R t R1 h1 t1 -> hs R1 h2 t2 -> (forall o, hlive t1 o -> hlive t2 o) -> hok R t R1 h2 t2.
Proof. intros (S & U & N & L) S2 L2. split; [exact S2|]. auto. Qed.
Ltac fget H := apply H; cbn [f_vars In]; auto.
Ltac here R := exists R; split; [|auto].
Lemma p_step pad V R s t c : psim V R s t -> (forall x, In x (f_vars c) -> V x) -> pok V R t (f_step pad s c) (f_step pad t c).
Proof.
  intros S I. pose proof (ps_h _ _ _ _ S) as Hh. destruct c as [x l|x y|x tx|x a|a xs|a b|a xs|o op xs|o p|o xs|a o|a o i|p|p q|p xs|o p|o p i|p b|r o|r p]; cbn [f_step].
  - destruct (new_sf_sim R (f_h s) (f_h t) (Filter l) Hh) as (R' & O & P). destruct (new_sf (f_h s) (Filter l)) as [h1 u], (new_sf (f_h t) (Filter l)) as [t1 w]. cbn [fst snd] in *.
    destruct (pok_h V R s t R' h1 t1 S O) as [S' N]. exists R'. split; [|exact N]. now apply let_sf_sim.
  - here R. apply let_sf_sim; [exact S|]. apply (ps_sf _ _ _ _ S). fget I.
  - assert (X : V (VSf x)) by fget I. destruct (ps_sf _ _ _ _ S x X) as [|n m K].
    + destruct (new_sf_sim R (f_h s) (f_h t) (sf_set None tx) Hh) as (R' & O & P). destruct (new_sf (f_h s) _) as [h1 u], (new_sf (f_h t) _) as [t1 w]. cbn [fst snd] in *.
      destruct (pok_h V R s t R' h1 t1 S O) as [S' N]. exists R'. split; [|exact N]. now apply let_sf_sim.
    + rewrite (sf_sim R (f_h s) (f_h t) (Some n) (Some m) Hh) by (now constructor). destruct (sf_set _ tx) as [c|]; [|now apply pok_same]. here R.
      eapply with_h_sim; [exact S|]. eapply hok_set; [apply hok_refl; exact Hh|now apply set_sf_sim|]. intros; now apply set_live_sf.
  - here R. apply let_sf_sim; [exact S|]. assert (X : V (VAf a)) by fget I. pose proof (ps_af _ _ _ _ S a X) as P. rewrite (af_sim R _ _ _ _ Hh P). destruct (af_isZero _); [constructor|].
    destruct P as [|n m K]; [constructor|]. cbn [rd]. destruct (proj1 (hs_af _ _ _ Hh) n m K) as ([a1 x1] & [b1 y1] & -> & -> & E & Q). exact Q.
  - destruct (aset_sim (v_sf s) (v_sf t) xs R (f_h s) (f_h t) (None, None) (None, None) Hh) as (R1 & O1 & E1).
    { split; [reflexivity|constructor]. }
    { intros y Y. apply (ps_sf _ _ _ _ S), I. cbn [f_vars In]. now right. }
    destruct (aset (v_sf s) (f_h s) (None, None) xs) as [h1 c1], (aset (v_sf t) (f_h t) (None, None) xs) as [t1 d1]. cbn [fst snd] in *.
    destruct (add_af_sim R1 h1 t1 c1 d1 (proj1 O1) E1) as (R2 & O2 & K). pose proof (hok_trans _ _ _ _ _ _ _ _ O1 O2) as O3.
    destruct (pok_h V R s t R2 _ _ S O3) as [S' N]. exists R2. split; [|exact N]. apply let_af_sim; [exact S'|now constructor].
  - here R. apply let_af_sim; [exact S|]. apply (ps_af _ _ _ _ S). fget I.
  - assert (X : V (VAf a)) by fget I. pose proof (ps_af _ _ _ _ S a X) as P. rewrite (af_sim R _ _ _ _ Hh P). destruct (af_isZero _).
    + destruct (aset_sim (v_sf s) (v_sf t) xs R (f_h s) (f_h t) (None, None) (None, None) Hh) as (R1 & O1 & E1).
      { split; [reflexivity|constructor]. }
      { intros y Y. apply (ps_sf _ _ _ _ S), I. cbn [f_vars In]. now right. }
      destruct (aset (v_sf s) (f_h s) (None, None) xs) as [h1 c1], (aset (v_sf t) (f_h t) (None, None) xs) as [t1 d1]. cbn [fst snd] in *.
      destruct (add_af_sim R1 h1 t1 c1 d1 (proj1 O1) E1) as (R2 & O2 & K). pose proof (hok_trans _ _ _ _ _ _ _ _ O1 O2) as O3.
      destruct (pok_h V R s t R2 _ _ S O3) as [S' N]. exists R2. split; [|exact N]. apply let_af_sim; [exact S'|now constructor].
    + destruct P as [|n m K]; [now apply pok_same|]. destruct (proj1 (hs_af _ _ _ Hh) n m K) as (c0 & d0 & -> & -> & E0).
      destruct (aset_sim (v_sf s) (v_sf t) xs R (f_h s) (f_h t) c0 d0 Hh E0) as (R1 & O1 & E1).
      { intros y Y. apply (ps_sf _ _ _ _ S), I. cbn [f_vars In]. now right. }
      destruct (aset (v_sf s) (f_h s) c0 xs) as [h1 c1], (aset (v_sf t) (f_h t) d0 xs) as [t1 d1]. cbn [fst snd] in *.
      assert (O3 : hok R (f_h t) R1 (set_af h1 n c1) (set_af t1 m d1)).
      { eapply hok_set; [exact O1| |intros; now apply set_live_af]. apply set_af_sim; [apply O1|now apply O1|exact E1]. }
      destruct (pok_h V R s t R1 _ _ S O3) as [S' N]. exists R1. now split.
  - destruct (opush_sim (v_af s) (v_af t) xs R (f_h s) (f_h t) (match op with Some n => aop_label n | None => noAOp end, []) (match op with Some n => aop_label n | None => noAOp end, []) Hh) as (R1 & O1 & E1).
    { split; [reflexivity|constructor]. }
    { intros y Y. apply (ps_af _ _ _ _ S), I. cbn [f_vars In]. now right. }
    destruct (opush (v_af s) (f_h s) _ xs) as [h1 c1], (opush (v_af t) (f_h t) _ xs) as [t1 d1]. cbn [fst snd] in *.
    destruct (add_op_sim R1 h1 t1 c1 d1 (proj1 O1) E1) as (R2 & O2 & K). pose proof (hok_trans _ _ _ _ _ _ _ _ O1 O2) as O3.
    destruct (pok_h V R s t R2 _ _ S O3) as [S' N]. exists R2. split; [|exact N]. apply let_op_sim; [exact S'|now constructor].
  - here R. apply let_op_sim; [exact S|]. apply (ps_op _ _ _ _ S). fget I.
  - assert (X : V (VOp o)) by fget I. destruct (ps_op _ _ _ _ S o X) as [|n m K]; [now apply pok_same|]. destruct (proj1 (hs_op _ _ _ Hh) n m K) as (c0 & d0 & -> & -> & E0).
    destruct (opush_sim (v_af s) (v_af t) xs R (f_h s) (f_h t) c0 d0 Hh E0) as (R1 & O1 & E1).
    { intros y Y. apply (ps_af _ _ _ _ S), I. cbn [f_vars In]. now right. }
    destruct (opush (v_af s) (f_h s) c0 xs) as [h1 c1], (opush (v_af t) (f_h t) d0 xs) as [t1 d1]. cbn [fst snd] in *.
    assert (O3 : hok R (f_h t) R1 (set_op h1 n c1) (set_op t1 m d1)).
    { eapply hok_set; [exact O1| |intros; now apply set_live_op]. apply set_op_sim; [apply O1|now apply O1|exact E1]. }
    destruct (pok_h V R s t R1 _ _ S O3) as [S' N]. exists R1. now split.
  - assert (X : V (VOp o)) by fget I. destruct (ps_op _ _ _ _ S o X) as [|n m K]; [here R; apply let_af_sim; [exact S|constructor]|].
    destruct (proj1 (hs_op _ _ _ Hh) n m K) as ([k l] & [k' l'] & -> & -> & E & F). cbn [fst snd] in E, F. subst k'. here R. apply let_af_sim; [|now apply last_sim].
    eapply with_h_sim; [exact S|]. eapply hok_set; [apply hok_refl; exact Hh| |intros; now apply set_live_op]. apply set_op_sim; [exact Hh|exact K|]. split; [reflexivity|]. now apply F2_removelast.
  - here R. apply let_af_sim; [exact S|]. assert (X : V (VOp o)) by fget I. destruct (ps_op _ _ _ _ S o X) as [|n m K]; [constructor|]. cbn [rd].
    destruct (proj1 (hs_op _ _ _ Hh) n m K) as ([k l] & [k' l'] & -> & -> & E & F). now apply F2_nth.
  - destruct (add_ops_sim R (f_h s) (f_h t) (","%char, []) (","%char, []) Hh) as (R1 & O1 & K); [split; [reflexivity|constructor]|].
    destruct (pok_h V R s t R1 _ _ S O1) as [S' N]. exists R1. split; [|exact N]. apply let_ops_sim; [exact S'|now constructor].
  - here R. apply let_ops_sim; [exact S|]. apply (ps_ops _ _ _ _ S). fget I.
  - assert (X : V (VOps p)) by fget I. destruct (ps_ops _ _ _ _ S p X) as [|n m K]; [now apply pok_same|]. destruct (proj1 (hs_ops _ _ _ Hh) n m K) as (c0 & d0 & -> & -> & E0).
    destruct (lpush_sim (v_op s) (v_op t) xs R (f_h s) (f_h t) c0 d0 Hh E0) as (R1 & O1 & E1).
    { intros y Y. apply (ps_op _ _ _ _ S), I. cbn [f_vars In]. now right. }
    destruct (lpush (v_op s) (f_h s) c0 xs) as [h1 c1], (lpush (v_op t) (f_h t) d0 xs) as [t1 d1]. cbn [fst snd] in *.
    assert (O3 : hok R (f_h t) R1 (set_ops h1 n c1) (set_ops t1 m d1)).
    { eapply hok_set; [exact O1| |intros; now apply set_live_ops]. apply set_ops_sim; [apply O1|now apply O1|exact E1]. }
    destruct (pok_h V R s t R1 _ _ S O3) as [S' N]. exists R1. now split.
  - assert (X : V (VOps p)) by fget I. destruct (ps_ops _ _ _ _ S p X) as [|n m K]; [here R; apply let_op_sim; [exact S|constructor]|].
    destruct (proj1 (hs_ops _ _ _ Hh) n m K) as ([k l] & [k' l'] & -> & -> & E & F). cbn [fst snd] in E, F. subst k'. here R. apply let_op_sim; [|now apply last_sim].
    eapply with_h_sim; [exact S|]. eapply hok_set; [apply hok_refl; exact Hh| |intros; now apply set_live_ops]. apply set_ops_sim; [exact Hh|exact K|]. split; [reflexivity|]. now apply F2_removelast.
  - here R. apply let_op_sim; [exact S|]. assert (X : V (VOps p)) by fget I. destruct (ps_ops _ _ _ _ S p X) as [|n m K]; [constructor|]. cbn [rd].
    destruct (proj1 (hs_ops _ _ _ Hh) n m K) as ([k l] & [k' l'] & -> & -> & E & F). now apply F2_nth.
  - assert (X : V (VOps p)) by fget I. destruct (ps_ops _ _ _ _ S p X) as [|n m K]; [now apply pok_same|].
    destruct (proj1 (hs_ops _ _ _ Hh) n m K) as ([k l] & [k' l'] & -> & -> & E & F). here R.
    eapply with_h_sim; [exact S|]. eapply hok_set; [apply hok_refl; exact Hh| |intros; now apply set_live_ops]. apply set_ops_sim; [exact Hh|exact K|]. split; [reflexivity|exact F].
  - here R. apply let_rule_sim; [exact S|]. assert (X : V (VOp o)) by fget I. rewrite (op_sim R _ _ _ _ Hh (ps_op _ _ _ _ S o X)). destruct (op_at (f_h t) (v_op t o)); constructor.
  - here R. apply let_rule_sim; [exact S|]. assert (X : V (VOps p)) by fget I. destruct (ps_ops _ _ _ _ S p X); constructor. assumption.
Qed.
Lemma fsim_p V R s t : fsim V R s t -> psim V R s t. Proof. intros []. now constructor. Qed.
Lemma f_sim_step pad V R s t c : fsim V R s t -> (forall x, In x (f_vars c) -> V x) ->
  exists R', fsim V R' (f_step pad s c) (f_step pad t c) /\ forall n m, R' n m -> R n m \/ ~ flive t m.
Proof.
  intros S I. destruct (p_step pad V R s t c (fsim_p _ _ _ _ S) I) as (R' & [] & N). exists R'. split; [|exact N].
  destruct (fs_wf _ _ _ _ S) as [Ws Wt]. constructor; auto. split; now apply step_ok.
Qed.
Lemma assigns_vars s c x : SFShare.assigns s c = Some x -> In x (f_vars c).
Proof.
  destruct c; cbn [SFShare.assigns f_vars]; try discriminate; try (intros [= <-]; now left);
  repeat match goal with |- context [match ?t with None => _ | Some _ => _ end] => destruct t end; try (destruct (af_isZero _)); try discriminate; intros [= <-]; now left.
Qed.
Lemma f_sim_frame pad V R s t c : fsim V R s t -> (forall x, In x (f_vars c) -> ~ V x) -> (forall n m, R n m -> ~ f_changes t c m) -> fsim V R s (f_step pad t c).
Proof.
  intros [[Ws Wt] [Kd A B C D] Hs Ha Ho Hp Hr] I N. destruct (step_ok pad t c Wt) as [Wt' (G1 & G2 & G3 & G4)]. destruct (step_vars pad t c) as (S1 & S2 & S3 & S4 & S5).
  assert (As : forall x, V x -> SFShare.assigns t c <> Some x) by (intros x X E; apply assigns_vars in E; now apply (I x)).
  constructor.
  - now split.
  - constructor; [exact Kd| | | |].
    + apply (hrel_frame _ _ _ (h_sf (f_h t))); [exact A|]. intros n m K. apply G1; [now apply (hrel_lt _ _ _ _ _ _ A) in K|]. now apply (N _ _ K).
    + apply (hrel_frame _ _ _ (h_af (f_h t))); [exact B|]. intros n m K. apply G2; [now apply (hrel_lt _ _ _ _ _ _ B) in K|]. now apply (N _ _ K).
    + apply (hrel_frame _ _ _ (h_op (f_h t))); [exact C|]. intros n m K. apply G3; [now apply (hrel_lt _ _ _ _ _ _ C) in K|]. now apply (N _ _ K).
    + apply (hrel_frame _ _ _ (h_ops (f_h t))); [exact D|]. intros n m K. apply G4; [now apply (hrel_lt _ _ _ _ _ _ D) in K|]. now apply (N _ _ K).
  - intros x X. rewrite S1 by (now apply As). auto.
  - intros x X. rewrite S2 by (now apply As). auto.
  - intros x X. rewrite S3 by (now apply As). auto.
  - intros x X. rewrite S4 by (now apply As). auto.
  - intros x X. rewrite S5 by (now apply As). auto.
Qed.
Lemma on_sim (k : nat -> cell) (R : frel) p q m : orel (fun n m => R (k n) (k m)) p q -> on k q = Some m -> exists n, R n m /\ on k p = Some n.
Proof. intros [|a b K]; cbn [on]; [discriminate|]. intros [= <-]. exists (k a). auto. Qed.
Lemma f_sim_changes V R s t c m : fsim V R s t -> (forall x, In x (f_vars c) -> V x) -> f_changes t c m -> exists n, R n m /\ f_changes s c n.
Proof.
  intros S I. unfold f_changes. destruct c; cbn [SFShare.changes]; try discriminate.
  - apply on_sim. apply (fs_sf _ _ _ _ S). fget I.
  - assert (X : V (VAf a)) by fget I. unfold show_af. rewrite (af_sim R _ _ _ _ (fs_h _ _ _ _ S) (fs_af _ _ _ _ S a X)). destruct (af_isZero _); [discriminate|]. apply on_sim. now apply (fs_af _ _ _ _ S).
  - apply on_sim. apply (fs_op _ _ _ _ S). fget I.
  - apply on_sim. apply (fs_op _ _ _ _ S). fget I.
  - apply on_sim. apply (fs_ops _ _ _ _ S). fget I.
  - apply on_sim. apply (fs_ops _ _ _ _ S). fget I.
  - apply on_sim. apply (fs_ops _ _ _ _ S). fget I.
Qed.
Lemma f_sim_live V R s t n m : fsim V R s t -> R n m -> flive t m.
Proof.
  intros S K. pose proof (fs_h _ _ _ _ S) as [Kd A B C D]. pose proof (Kd _ _ K) as Q. unfold flive. destruct n as [n|n|n|n], m as [m|m|m|m]; try destruct Q; cbn [hlive].
  - now apply (hrel_lt _ _ _ _ n m A).
  - now apply (hrel_lt _ _ _ _ n m B).
  - now apply (hrel_lt _ _ _ _ n m C).
  - now apply (hrel_lt _ _ _ _ n m D).
Qed.
(* statements keep all cells *)
Lemma f_live_step pad t c m : wff t -> flive t m -> flive (f_step pad t c) m.
Proof. intros W. destruct (step_ok pad t c W) as [_ ((L1 & _) & (L2 & _) & (L3 & _) & (L4 & _))]. unfold flive. destruct m; cbn [hlive]; lia. Qed.
Definition wlive (s : fstate) (o : cell) : Prop := wff s /\ flive s o.

(* what is inside a part is a part *)
Inductive down (h : heaps) : cell -> cell -> Prop :=
| D_af n a k : nth_error (h_af h) n = Some (a, Some k) -> down h (CAf n) (CSf k)
| D_op n o l m : nth_error (h_op h) n = Some (o, l) -> In m l -> down h (COp n) (CAf m)
| D_ops n d l m : nth_error (h_ops h) n = Some (d, l) -> In m l -> down h (COps n) (COp m).
Lemma af_down h p c d : af_part h p c -> down h c d -> af_part h p d.
Proof.
  intros (n & -> & [->|(a & q & E & (k & -> & ->))]) D; inversion D; subst. exists n. split; [reflexivity|]. right. exists a, (Some k). split; [assumption|]. now exists k.
Qed.
Lemma op_down h p c d : op_part h p c -> down h c d -> op_part h p d.
Proof.
  intros (n & -> & [->|(o & l & m & E & I & A)]) D.
  - inversion D; subst. exists n. split; [reflexivity|]. right. exists o, l, m. split; [assumption|]. split; [assumption|]. exists m. auto.
  - exists n. split; [reflexivity|]. right. exists o, l, m. split; [exact E|]. split; [exact I|]. eapply af_down; eassumption.
Qed.
Lemma ops_down h p c d : ops_part h p c -> down h c d -> ops_part h p d.
Proof.
  intros (n & -> & [->|(o & l & m & E & I & A)]) D.
  - inversion D; subst. exists n. split; [reflexivity|]. right. exists d0, l, m. split; [assumption|]. split; [assumption|]. exists m. auto.
  - exists n. split; [reflexivity|]. right. exists o, l, m. split; [exact E|]. split; [exact I|]. eapply op_down; eassumption.
Qed.
Lemma part_down s x c d : part s x c -> down (f_h s) c d -> part s x d.
Proof.
  destruct x as [x|x|x|x|x]; cbn [part].
  - intros (n & _ & ->) D. inversion D.
  - apply af_down.
  - apply op_down.
  - apply ops_down.
  - destruct (v_rule s x); try tauto. apply ops_down.
Qed.
Lemma sf_live h p c : okp (h_sf h) p -> sf_part p c -> hlive h c.
Proof. intros O (n & -> & ->). now apply O. Qed.
Lemma af_live h p c : wfh h -> okp (h_af h) p -> af_part h p c -> hlive h c.
Proof. intros W O (n & -> & [->|(a & q & E & P)]); [now apply O|]. eapply sf_live; [|exact P]. eapply w_af; eassumption. Qed.
Lemma op_live h p c : wfh h -> okp (h_op h) p -> op_part h p c -> hlive h c.
Proof. intros W O (n & -> & [->|(o & l & m & E & I & P)]); [now apply O|]. eapply af_live; [exact W| |exact P]. apply okp_lt. eapply w_op; eassumption. Qed.
Lemma ops_live h p c : wfh h -> okp (h_ops h) p -> ops_part h p c -> hlive h c.
Proof. intros W O (n & -> & [->|(o & l & m & E & I & P)]); [now apply O|]. eapply op_live; [exact W| |exact P]. apply okp_lt. eapply w_ops; eassumption. Qed.
Lemma part_live s x c : wff s -> part s x c -> hlive (f_h s) c.
Proof.
  intros W. destruct x as [x|x|x|x|x]; cbn [part].
  - apply sf_live. apply (wf_sf s W).
  - apply af_live; [apply (wf_h s W)|apply (wf_af s W)].
  - apply op_live; [apply (wf_h s W)|apply (wf_opv s W)].
  - apply ops_live; [apply (wf_h s W)|apply (wf_opsv s W)].
  - destruct (v_rule s x) eqn:E; try tauto. apply ops_live; [apply (wf_h s W)|]. apply okp_lt. eapply wf_rule; eassumption.
Qed.
Lemma nth_some {A} (h : list A) n : (n < List.length h)%nat -> exists d, nth_error h n = Some d.
Proof. intros L. destruct (nth_error h n) as [d|] eqn:E; [now exists d|]. apply nth_error_None in E. lia. Qed.
Lemma F2_diag (R : rel) l : (forall n, In n l -> R n n) -> Forall2 R l l.
Proof. induction l as [|n l IH]; intros H; constructor; [apply H; now left|]. apply IH. intros m M. apply H. now right. Qed.
Lemma f_wf_sim (V : fvar -> Prop) s : wff s -> fsim V (fun n m => n = m /\ exists x, V x /\ part s x n) s s.
Proof.
  intros W. constructor; [now split|constructor| | | | |].
  - intros o p (<- & P). destruct o; exact (conj eq_refl P).
  - split; [|intros n m n' m' [[= <-] _] [[= <-] _]; tauto]. intros n m [[= <-] (x & X & P)]. apply part_live in P; [|exact W]. destruct (nth_some _ _ P) as [d E]. now exists d, d.
  - split; [|intros n m n' m' [[= <-] _] [[= <-] _]; tauto]. intros n m [[= <-] (x & X & P)]. pose proof (part_live _ _ _ W P) as L. destruct (nth_some _ _ L) as [[a q] E].
    exists (a, q), (a, q). split; [exact E|]. split; [exact E|]. split; [reflexivity|]. cbn [snd]. destruct q as [k|]; constructor. split; [reflexivity|]. exists x. split; [exact X|].
    eapply part_down; [exact P|]. econstructor; exact E.
  - split; [|intros n m n' m' [[= <-] _] [[= <-] _]; tauto]. intros n m [[= <-] (x & X & P)]. pose proof (part_live _ _ _ W P) as L. destruct (nth_some _ _ L) as [[a q] E].
    exists (a, q), (a, q). split; [exact E|]. split; [exact E|]. split; [reflexivity|]. cbn [snd]. apply F2_diag. intros k K. split; [reflexivity|]. exists x. split; [exact X|].
    eapply part_down; [exact P|]. econstructor; [exact E|exact K].
  - split; [|intros n m n' m' [[= <-] _] [[= <-] _]; tauto]. intros n m [[= <-] (x & X & P)]. pose proof (part_live _ _ _ W P) as L. destruct (nth_some _ _ L) as [[a q] E].
    exists (a, q), (a, q). split; [exact E|]. split; [exact E|]. split; [reflexivity|]. cbn [snd]. apply F2_diag. intros k K. split; [reflexivity|]. exists x. split; [exact X|].
    eapply part_down; [exact P|]. econstructor; [exact E|exact K].
  - intros x X. destruct (v_sf s x) as [n|] eqn:E; constructor. split; [reflexivity|]. exists (VSf x). split; [exact X|]. exists n. now rewrite E.
  - intros x X. destruct (v_af s x) as [n|] eqn:E; constructor. split; [reflexivity|]. exists (VAf x). split; [exact X|]. exists n. rewrite E. auto.
  - intros x X. destruct (v_op s x) as [n|] eqn:E; constructor. split; [reflexivity|]. exists (VOp x). split; [exact X|]. exists n. rewrite E. auto.
  - intros x X. destruct (v_ops s x) as [n|] eqn:E; constructor. split; [reflexivity|]. exists (VOps x). split; [exact X|]. exists n. rewrite E. auto.
  - intros x X. destruct (v_rule s x) as [|r|n] eqn:E; constructor. split; [reflexivity|]. exists (VRule x). split; [exact X|]. cbn [part]. rewrite E. exists n. auto.
Qed.
(* every variable shows what it shows when its goroutine runs alone (same_view: SFShare.v) *)
Theorem C142_alone : forall pad (owner : fvar -> nat) p (q : @schedule fstmt), let s := f_run pad f_start p in
  own_variables f_vars owner q -> (forall i, spares (f_step pad) f_changes s (program_of i q) (common part owner s)) ->
  forall v, same_view pad (f_run pad s (map snd q)) (f_run pad s (program_of (owner v) q)) v.
Proof.
  intros pad owner p q s I Sp v.
  assert (A1 : forall V R s t c, fsim V R s t -> (forall x, In x (f_vars c) -> V x) -> exists R', fsim V R' (f_step pad s c) (f_step pad t c) /\ forall n m, R' n m -> R n m \/ ~ wlive t m).
  { intros V R a b c S J. destruct (f_sim_step pad V R a b c S J) as (R' & S' & N). exists R'. split; [exact S'|]. intros n m K. destruct (N n m K) as [Y|Y]; [now left|right]. intros [_ Z]. now apply Y. }
  assert (A2 : forall V R s t n m, fsim V R s t -> R n m -> wlive t m) by (intros V R a b n m S K; split; [apply S|eapply f_sim_live; eassumption]).
  assert (A3 : forall t c m, wlive t m -> wlive (f_step pad t c) m) by (intros t c m [W L]; split; [now apply step_ok|now apply f_live_step]).
  destruct (threads_start (f_step pad) f_vars f_changes part wlive fsim wff A1 (f_sim_frame pad) f_sim_changes A2 A3 f_wf_sim owner s q (start_ok pad p) I Sp (owner v)) as (R & S).
  change (runs (f_step pad) s (program_of (owner v) q)) with (f_run pad s (program_of (owner v) q)) in S. change (runs (f_step pad) s (map snd q)) with (f_run pad s (map snd q)) in S.
  destruct S as [_ H Hs Ha Ho Hp Hr]. destruct v as [x|x|x|x|x]; cbn [same_view]; unfold show_sf, show_af, show_op, show_ops, show_rule.
  - apply (sf_sim R); auto.
  - apply (af_sim R); auto.
  - apply (op_sim R); auto.
  - apply (ops_sim R); auto.
  - destruct (Hr x eq_refl) as [|r|n m K]; try reflexivity. now rewrite (ops_sim R _ _ (Some n) (Some m) H) by (now constructor).
Qed.
(* two schedules of the same goroutines *)
Lemma view_trans pad a b c v : same_view pad a b v -> same_view pad c b v -> same_view pad a c v.
Proof. destruct v; cbn [same_view]; congruence. Qed.
Theorem C142_schedules : forall pad (owner : fvar -> nat) p (q q' : @schedule fstmt), let s := f_run pad f_start p in
  own_variables f_vars owner q -> own_variables f_vars owner q' -> (forall i, spares (f_step pad) f_changes s (program_of i q) (common part owner s)) ->
  (forall i, program_of i q = program_of i q') ->
  forall v, same_view pad (f_run pad s (map snd q)) (f_run pad s (map snd q')) v.
Proof.
  intros pad owner p q q' s I I' Sp P v.
  assert (Sp' : forall i, spares (f_step pad) f_changes s (program_of i q') (common part owner s)) by (intros i; rewrite <- P; apply Sp).
  pose proof (C142_alone pad owner p q I Sp v) as A. pose proof (C142_alone pad owner p q' I' Sp' v) as B. rewrite <- P in B. eapply view_trans; eassumption.
Qed.

(* ---------------- concrete cases ---------------- *)
Open Scope string_scope.
(* an attribute filter both goroutines hold (variables 0 and 10) and push to operations of
   their own *)
Definition fOwner (x : fvar) : nat := match x with VSf x | VAf x | VOp x | VOps x | VRule x => if (x <? 10)%nat then 0 else 1 end.
Definition fProg : list fstmt := [ANew 0 [RStr "cn"; RStr "(x=1)"]; ACopy 10 0].
Definition fSched : @schedule fstmt :=
  [(0, ONew 0 (Some AddOp) [QAF 0]); (1, ONew 10 (Some DelOp) [QAF 10]); (1, ANew 11 [RStr "sn"; RStr "(x=2)"]); (0, LNew 0); (1, OPush 10 [QAF 11]);
   (1, LNew 10); (0, LPush 0 [UOp 0]); (1, LPush 10 [UOp 10]); (1, REqOps 10 10); (0, REqOps 0 0); (1, ASet 11 [RStr "(x=3)"])]%nat.
Definition fSched' : @schedule fstmt := (filter (fun e => (fst e =? 1)%nat) fSched ++ filter (fun e => (fst e =? 0)%nat) fSched)%list.
Lemma f_owned (q : @schedule fstmt) : forallb (fun e => forallb (fun x => (fOwner x =? fst e)%nat) (f_vars (snd e))) q = true -> own_variables f_vars fOwner q.
Proof. intros H i c K x X. rewrite forallb_forall in H. specialize (H _ K). cbn [fst snd] in H. rewrite forallb_forall in H. now apply Nat.eqb_eq, H. Qed.
Lemma f_two {S} (q : @schedule S) i : forallb (fun e => (fst e <? 2)%nat) q = true -> i <> 0%nat -> i <> 1%nat -> program_of i q = [].
Proof.
  intros H N0 N1. unfold program_of. induction q as [|e q IH]; [reflexivity|]. cbn [forallb] in H. apply andb_prop in H as [E H]. apply Nat.ltb_lt in E. cbn [filter].
  destruct (Nat.eqb_spec (fst e) i) as [X|X]; [lia|now apply IH].
Qed.
(* the program changes no cell of the first state *)
Fixpoint f_new (s : fstate) (q : list fstmt) (old : heaps) : bool :=
  match q with
  | [] => true
  | c :: r => match SFShare.changes s c with
              | Some (CSf n) => (List.length (h_sf old) <=? n)%nat
              | Some (CAf n) => (List.length (h_af old) <=? n)%nat
              | Some (COp n) => (List.length (h_op old) <=? n)%nat
              | Some (COps n) => (List.length (h_ops old) <=? n)%nat
              | None => true
              end && f_new (f_step true s c) r old
  end.
Lemma f_new_spares (com : cell -> Prop) old : (forall m, com m -> hlive old m) -> forall q s, f_new s q old = true -> spares (f_step true) f_changes s q com.
Proof.
  intros L. induction q as [|c q IH]; intros s H; cbn [spares]; [exact I|]. cbn [f_new] in H. apply andb_prop in H as [A B]. split; [|now apply IH].
  intros m E C. apply L in C. unfold f_changes in E. rewrite E in A. destruct m; apply Nat.leb_le in A; cbn [hlive] in C; lia.
Qed.
Example C142_witness : let s := f_run true f_start fProg in
  own_variables f_vars fOwner fSched /\ own_variables f_vars fOwner fSched' /\ common part fOwner s (CAf 0) /\
  (forall i, spares (f_step true) f_changes s (program_of i fSched) (common part fOwner s)) /\ (forall i, program_of i fSched = program_of i fSched') /\
  map (fun r => tr_string (show_rule true (f_run true s (map snd fSched)) r)) [0; 10]%nat =
    ["( targattrfilters = " ++ quote "add=cn:(x=1)" ++ " )"; "( targattrfilters = " ++ quote "delete=cn:(x=1) && sn:(x=3)" ++ " )"].
Proof.
  intros s. split; [apply f_owned; reflexivity|]. split; [apply f_owned; reflexivity|].
  split; [exists (VAf 0), (VAf 10); split; [discriminate|]; split; exists 0%nat; split; try reflexivity; now left|].
  assert (C : forall m, common part fOwner s m -> hlive (f_h s) m) by (intros m (x & y & _ & L & _); apply (part_live s x); [apply (start_ok true fProg)|exact L]).
  split; [|split; [|vm_compute; reflexivity]].
  - intros i. destruct (Nat.eq_dec i 0) as [->|N0]; [|destruct (Nat.eq_dec i 1) as [->|N1]; [|rewrite (f_two fSched i eq_refl N0 N1); exact I]].
    all: apply (f_new_spares _ (f_h s) C); vm_compute; reflexivity.
  - intros i. destruct (Nat.eq_dec i 0) as [->|N0]; [reflexivity|]. destruct (Nat.eq_dec i 1) as [->|N1]; [reflexivity|].
    now rewrite (f_two fSched i eq_refl N0 N1), (f_two fSched' i eq_refl N0 N1).
Qed.
(* operations of their own are not enough: Set on a filter one goroutine pushed changes the
   operation of another one that pushed the same filter *)
Theorem C142_shared_refuted : ~ (forall pad (owner : fvar -> nat) p (q : @schedule fstmt) o, let s := f_run pad f_start p in
  own_variables f_vars owner q -> (forall n, ~ common part owner s (COp n)) -> (forall n, ~ common part owner s (COps n)) ->
  show_op (f_run pad s (map snd q)) o = show_op (f_run pad s (program_of (owner (VOp o)) q)) o).
Proof.
  intros H. specialize (H true fOwner (fProg ++ [ONew 0 (Some AddOp) [QAF 0]; ONew 10 (Some DelOp) [QAF 10]])%list [(0, ASet 0 [RStr "(x=3)"])]%nat 10%nat). cbv zeta in H.
  match type of H with ?A -> ?B -> ?C -> ?E => assert (X : E); [apply H|vm_compute in X; discriminate X] end.
  - apply f_owned. reflexivity.
  - intros n (x & y & N & A & B). apply N. clear N.
    assert (G : forall z, part (f_run true f_start (fProg ++ [ONew 0 (Some AddOp) [QAF 0]; ONew 10 (Some DelOp) [QAF 10]])%list) z (COp n) ->
      z = VOp 0 /\ n = 0%nat \/ z = VOp 10 /\ n = 1%nat).
    { clear. intros z P. destruct z as [z|z|z|z|z]; cbn [part] in P.
      - destruct P as (k & _ & K). discriminate K.
      - destruct P as (k & _ & [K|(a & b & _ & (j & _ & K))]); discriminate K.
      - destruct P as (k & E & [K|(a & b & m & _ & _ & (j & _ & [K|(? & ? & _ & (? & _ & K))]))]); try discriminate K. injection K as <-.
        cbn in E. unfold upd in E. cbn in E. destruct (Nat.eqb_spec z 10) as [Z|Z]; [injection E as <-; right; split; [now rewrite Z|reflexivity]|].
        destruct (Nat.eqb_spec z 0) as [Y|Y]; [injection E as <-; left; split; [now rewrite Y|reflexivity]|discriminate E].
      - destruct P as (k & E & _). vm_compute in E. discriminate E.
      - vm_compute in P. destruct P. }
    destruct (G x A) as [[-> E]|[-> E]], (G y B) as [[-> F]|[-> F]]; try reflexivity; congruence.
  - intros n (x & y & _ & A & _). destruct x as [z|z|z|z|z]; cbn [part] in A.
    + destruct A as (k & _ & K). discriminate K.
    + destruct A as (k & _ & [K|(a & b & _ & (j & _ & K))]); discriminate K.
    + destruct A as (k & E & [K|(a & b & m & _ & _ & (j & _ & [K|(? & ? & _ & (? & _ & K))]))]); discriminate K.
    + destruct A as (k & E & _). vm_compute in E. discriminate E.
    + vm_compute in A. destruct A.
Qed.
Print Assumptions C142_alone.
Print Assumptions C142_schedules.
Print Assumptions C142_shared_refuted.
