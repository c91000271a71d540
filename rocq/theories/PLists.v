(* Lemmas for C26-C32. *)
From Coq Require Import String Ascii List PeanoNat NArith Bool Lia.
From Verif Require Import GoStr GoStrFacts MMisc MKw MAttr MLists SAttr SLists PMisc PAttr.
Import ListNotations.
Open Scope string_scope.
Arguments condenseWHSP : simpl never.
Arguments LocalScheme : simpl never.

(* ---- ordered pairs ---- *)
Lemma fop_snoc {A} (R : A -> A -> Prop) l x : ForallOrdPairs R l -> (forall y, In y l -> R y x) -> ForallOrdPairs R (l ++ [x]).
Proof.
  induction 1 as [|a l Ha H IH]; cbn [app]; intros Hx.
  - constructor; [constructor|constructor].
  - constructor.
    + apply Forall_app. split; [exact Ha|]. constructor; [apply Hx; now left|constructor].
    + apply IH. intros y Hy. apply Hx. now right.
Qed.
Lemma removelast_split {A} (l : list A) : l = [] \/ exists x, l = (removelast l ++ [x])%list.
Proof.
  destruct l as [|a l]; [now left|right]. exists (last (a :: l) a). apply app_removelast_last. discriminate.
Qed.
Lemma fop_app_l {A} (R : A -> A -> Prop) l m : ForallOrdPairs R (l ++ m) -> ForallOrdPairs R l.
Proof.
  induction l as [|a l IH]; cbn [app]; intros H; [constructor|]. inversion H; subst. constructor; [|auto].
  now apply Forall_app in H2 as [? _].
Qed.
Lemma fop_pop {A} (R : A -> A -> Prop) l : ForallOrdPairs R l -> ForallOrdPairs R (pop l).
Proof.
  unfold pop. intros H. destruct (removelast_split l) as [->|[x E]]; [constructor|]. rewrite E in H. now apply fop_app_l in H.
Qed.
Lemma in_pop {A} (l : list A) x : In x (pop l) -> In x l.
Proof.
  unfold pop. intros H. destruct (removelast_split l) as [->|[y E]]; [exact H|]. rewrite E. apply in_or_app. now left.
Qed.
Lemma fop_pairs {A} (R : A -> A -> Prop) l : ForallOrdPairs R l ->
  forall i j x y, nth_error l i = Some x -> nth_error l j = Some y -> (i < j)%nat -> R x y.
Proof.
  induction 1 as [|a l Ha H IH]; intros i j x y Hi Hj L; [now destruct i|].
  destruct j as [|j]; [lia|]. destruct i as [|i]; cbn in Hi, Hj.
  - injection Hi as <-. rewrite Forall_forall in Ha. apply Ha. now apply nth_error_In in Hj.
  - apply (IH i j); auto; lia.
Qed.

(* ---- DN lists ---- *)
Section DN.
Variable eqf : string -> string -> bool.
Variable bad : string.
Variable uris : bool.
Notation text := (dmember_string bad).
Definition dn_inv (kw : N) (l : list dmember) : Prop :=
  distinct_by (fun x y => eqf (text x) (text y)) l /\
  (forall m, In m l -> (exists s, m = MDN (Some (MkDN kw (Some s)))) \/ (uris = true /\ exists t, m = MURI t)).

Lemma existsb_false {A} (f : A -> bool) l : existsb f l = false <-> forall x, In x l -> f x = false.
Proof.
  split.
  - intros H x Hx. destruct (f x) eqn:E; [|easy]. assert (existsb f l = true) by (apply existsb_exists; eauto). congruence.
  - intros H. destruct (existsb f l) eqn:E; [|easy]. apply existsb_exists in E as (x & Hx & E). rewrite H in E by easy. discriminate.
Qed.
Lemma cast_kind kw x m : push_cast uris kw x = Some m ->
  (exists s, m = MDN (Some (MkDN kw (Some s)))) \/ (uris = true /\ exists t, m = MURI t).
Proof.
  destruct x as [s|d|t|]; cbn [push_cast]; intros H; try discriminate.
  - destruct (0 <? String.length s)%nat eqn:E; [|discriminate]. injection H as <-. left. unfold newDistinguishedName.
    destruct (Nat.eqb_spec (String.length s) 0); [apply Nat.ltb_lt in E; lia|]. eauto.
  - destruct d as [[k [s|]]|]; cbn in H; try discriminate. destruct (N.eqb_spec k kw) as [->|]; [|discriminate].
    injection H as <-. left. eauto.
  - destruct uris; [|discriminate]. injection H as <-. right. eauto.
Qed.
Lemma push1_inv kw l m : dn_inv kw l -> ((exists s, m = MDN (Some (MkDN kw (Some s)))) \/ (uris = true /\ exists t, m = MURI t)) ->
  dn_inv kw (push1 (dn_policy eqf bad) l m).
Proof.
  intros [D K] Hm. unfold push1, dn_policy, dn_contains. destruct (existsb _ l) eqn:E; cbn [negb]; [now split|].
  rewrite existsb_false in E. split.
  - apply fop_snoc; [exact D|exact E].
  - intros m' Hm'. apply in_app_or in Hm' as [H|[<-|[]]]; [now apply K|exact Hm].
Qed.
Lemma dn_push_inv kw xs : forall l, dn_inv kw l -> dn_inv kw (dn_push eqf bad uris kw l xs).
Proof.
  induction xs as [|x xs IH]; intros l H; [exact H|]. cbn [dn_push]. destruct (push_cast uris kw x) as [m|] eqn:E; [|exact H].
  apply IH, push1_inv; [exact H|]. now apply (cast_kind kw x).
Qed.
Lemma dn_step_inv kw l c : dn_inv kw l -> dn_inv kw (dn_step eqf bad uris kw l c).
Proof.
  destruct c as [xs|]; [apply dn_push_inv|]. intros [D K]. cbn [dn_step]. split; [now apply fop_pop|].
  intros m H. apply K. now apply in_pop.
Qed.
Lemma dn_run_inv kw init h : dn_inv kw (dn_run eqf bad uris kw init h).
Proof.
  unfold dn_run. assert (H : dn_inv kw (dn_push eqf bad uris kw [] init)) by (apply dn_push_inv; split; [constructor|easy]).
  revert H. generalize (dn_push eqf bad uris kw [] init). induction h as [|c h IH]; intros l H; [exact H|]. now apply IH, dn_step_inv.
Qed.
End DN.

Lemma contains1 c s : scontains (String c "") s = true <-> In c (chars s).
Proof.
  induction s as [|d s IH]; cbn [scontains chars In has_prefix].
  - split; [discriminate|easy].
  - rewrite orb_true_iff, IH, andb_true_r. destruct (Ascii.eqb_spec c d) as [->|N]; intuition congruence.
Qed.
Lemma chop_scheme s : chopDNPfx (LocalScheme ++ s) = s.
Proof. unfold chopDNPfx. rewrite has_prefix_app. apply sdrop_app. Qed.
Lemma len0 (s : string) : (String.length s =? 0)%nat = true <-> s = "".
Proof. destruct s; cbn; split; congruence. Qed.
Lemma len0f (s : string) : (String.length s =? 0)%nat = false <-> s <> "".
Proof. destruct s; cbn; split; congruence. Qed.

(* ---- OID lists ---- *)
Section OID.
Variable eqf : string -> string -> bool.
Variable dotnot : string -> option string.
Hypothesis DT : forall s t, dotnot s = Some t -> t <> "" /\ t <> badDotNot.
Definition oarg_ok (x : oarg) : Prop :=
  match x with
  | OStr _ => True
  | OOID (Some (MkOID _ (Some t))) => exists s, dotnot s = Some t
  | OOID _ => True
  | OKey _ => False
  | OOtherArg => True
  end.
Definition oid_inv (kw : N) (r : olist) : Prop :=
  ol_kw r = kw /\
  distinct_by (fun x y => eqf (omember_string x) (omember_string y)) (ol_mem r) /\
  (forall m, In m (ol_mem r) -> exists s t, dotnot s = Some t /\ m = OOid (Some (MkOID kw (Some t)))).

Lemma opush1_inv kw r o : kw <> 0%N -> oid_inv kw r -> oarg_ok (OOID o) ->
  oid_inv kw (MkOL (ol_kw r) (push1 (oid_policy eqf (ol_kw r)) (ol_mem r) (OOid o))).
Proof.
  intros K0 (K & D & M) Ho. rewrite K. split; [easy|]. cbn [ol_mem]. unfold push1, oid_policy.
  destruct (oid_contains eqf (ol_mem r) (OOid o)) eqn:C; [now split|].
  destruct o as [[k [t|]]|]; cbn [oid_valid oid_kw]; try (now split).
  destruct (N.eqb_spec k 0); cbn [negb andb]; [now split|]. destruct (N.eqb_spec k kw) as [->|]; [|now split].
  destruct Ho as [s Hs]. destruct (DT s t Hs) as [T1 T2]. split.
  - apply fop_snoc; [exact D|]. unfold oid_contains in C. destruct (ol_mem r) as [|m0 l]; [easy|].
    cbn [omember_string oid_string] in *. destruct (N.eqb_spec kw 0); [easy|]. rewrite (proj2 (len0f t) T1) in C.
    destruct (String.eqb_spec t badDotNot); [easy|]. cbn [orb] in C. rewrite existsb_false in C. exact C.
  - intros m Hm. apply in_app_or in Hm as [Hm|[<-|[]]]; [now apply M|]. eauto.
Qed.
Lemma mkOID_ok kw s : oarg_ok (OOID (mkOID dotnot kw s)).
Proof. unfold mkOID, newObjectID. destruct (dotnot s) eqn:E; cbn; eauto. Qed.
Lemma opush_inv kw xs : kw <> 0%N -> forall r, oid_inv kw r -> (forall x, In x xs -> oarg_ok x) -> oid_inv kw (oid_push eqf dotnot r xs).
Proof.
  intros K0. unfold oid_push. induction xs as [|x xs IH]; intros r H Hx; [exact H|]. cbn [fold_left].
  apply IH; [|intros; apply Hx; now right]. specialize (Hx x (or_introl eq_refl)).
  destruct x as [s|o|k|]; cbn [oid_push1].
  - apply opush1_inv; auto using mkOID_ok.
  - now apply opush1_inv.
  - contradiction.
  - exact H.
Qed.
Definition ocall_args (c : ocall) : list oarg := match c with OPush xs => xs | OPop => [] end.
Lemma orun_inv kw init h : kw <> 0%N -> (forall x, In x init -> oarg_ok x) ->
  (forall c x, In c h -> In x (ocall_args c) -> oarg_ok x) -> oid_inv kw (oid_run eqf dotnot kw init h).
Proof.
  intros K0 Hi Hh. unfold oid_run.
  assert (H : oid_inv kw (oid_push eqf dotnot (MkOL kw []) init)) by (apply opush_inv; [easy| |easy]; split; [easy|]; split; [constructor|easy]).
  revert H. generalize (oid_push eqf dotnot (MkOL kw []) init). induction h as [|c h IH]; intros r H; [exact H|].
  cbn [fold_left]. apply IH; [intros c' x Hc; apply Hh; now right|].
  destruct c as [xs|]; cbn [oid_step].
  - apply opush_inv; [easy|easy|]. intros x Hx. now apply (Hh (OPush xs)); [left|].
  - destruct H as (K & D & M). split; [easy|]. cbn [ol_mem]. split; [now apply fop_pop|]. intros m Hm. apply M. now apply in_pop.
Qed.

(* the reader *)
Lemma existsb_map {A B} (f : B -> bool) (g : A -> B) l : existsb f (map g l) = existsb (fun x => f (g x)) l.
Proof. induction l as [|x l IH]; cbn; [easy|now rewrite IH]. Qed.
Lemma set_values_spec kw vals : kw <> 0%N -> forall seen,
  let mem := map (fun t => OOid (Some (MkOID kw (Some t)))) in
  oid_setExpressionValues eqf dotnot (MkOL kw (mem seen)) kw vals =
  MkOL kw (mem (seen ++ firsts_by eqf (good_prefix dotnot vals) seen)%list).
Proof.
  intros K0. induction vals as [|v vals IH]; intros seen mem; cbn [oid_setExpressionValues good_prefix firsts_by].
  - now rewrite app_nil_r.
  - unfold newObjectID. destruct (dotnot v) as [t|] eqn:E; [|cbn [firsts_by]; now rewrite app_nil_r].
    destruct (DT v t E) as [T1 T2].
    assert (P : oid_push eqf dotnot (MkOL kw (mem seen)) [OOID (Some (MkOID kw (Some t)))] =
                MkOL kw (mem (if existsb (fun y => eqf y t) seen then seen else (seen ++ [t])%list))).
    { unfold oid_push. cbn [fold_left oid_push1 ol_kw ol_mem]. f_equal. unfold push1, oid_policy.
      assert (C : oid_contains eqf (mem seen) (OOid (Some (MkOID kw (Some t)))) = existsb (fun y => eqf y t) seen).
      { unfold oid_contains, mem. destruct seen as [|s0 seen]; [easy|]. cbn [map]. cbn [oid_string].
        destruct (N.eqb_spec kw 0); [easy|]. rewrite (proj2 (len0f t) T1).
        destruct (String.eqb_spec t badDotNot); [easy|]. cbn [orb]. change (OOid (Some (MkOID kw (Some s0))) :: map (fun t => OOid (Some (MkOID kw (Some t)))) seen)
          with (map (fun t => OOid (Some (MkOID kw (Some t)))) (s0 :: seen)). rewrite existsb_map.
        apply (f_equal (fun f => existsb f (s0 :: seen))) || idtac. cbn [omember_string oid_string].
        destruct (N.eqb_spec kw 0); [easy|]. reflexivity. }
      rewrite C. cbn [oid_valid oid_kw]. rewrite N.eqb_refl. destruct (N.eqb_spec kw 0); [easy|]. cbn [negb andb].
      destruct (existsb _ seen); [reflexivity|]. unfold mem. now rewrite map_app. }
    rewrite P. destruct (existsb (fun y => eqf y t) seen) eqn:X; fold mem; rewrite IH.
    + cbn [firsts_by]. now rewrite X.
    + cbn [firsts_by]. rewrite X, <- app_assoc. reflexivity.
Qed.
End OID.

(* ---- attribute lists ---- *)
Lemma at_policy_name a s : a = AT s -> at_pushPolicy [] a = negb (at_isZero (AT s)).
Proof. now intros ->. Qed.
