(* Lemmas for C73-C76: reading a table of methods, whatever the order of the map. *)
From Coq Require Import String Ascii List PeanoNat NArith ZArith Bool Lia Permutation.
From Verif Require Import GoStr GoStrFacts Shifty MMisc MLists MRule MKw MMeth SKw PKw SMeth.
Import ListNotations.
Open Scope string_scope.

Lemma relop_const_inj a b : relop_const a = relop_const b -> a = b.
Proof. destruct a, b; intros H; try reflexivity; discriminate H. Qed.
Lemma relop_small o : (1 <= Z.of_N (relop_const o) <= 6)%Z.
Proof. destruct o; cbn; lia. Qed.
Lemma relop_of n : (1 <= n <= 6)%N -> exists o, n = relop_const o.
Proof.
  intros H. assert (C : n = 1%N \/ n = 2%N \/ n = 3%N \/ n = 4%N \/ n = 5%N \/ n = 6%N) by lia.
  destruct C as [->|[->|[->|[->|[->| ->]]]]]; [exists REq|exists RNe|exists RLt|exists RGt|exists RLe|exists RGe]; reflexivity.
Qed.

Lemma m_get_in m : NoDup (map fst m) -> forall k r, In (k, r) m -> m_get m k = Some r.
Proof.
  induction m as [|[k' r'] m IH]; intros ND k r H; [contradiction|]. inversion ND as [|? ? N1 N2]; subst. cbn [m_get].
  destruct H as [E|H].
  - injection E as -> ->. now rewrite N.eqb_refl.
  - destruct (k' =? k)%N eqn:E; [|now apply IH]. apply N.eqb_eq in E. subst k'.
    contradiction N1. apply in_map_iff. now exists (k, r).
Qed.
Lemma m_get_none m k : ~ In k (map fst m) -> m_get m k = None.
Proof.
  induction m as [|[k' r'] m IH]; intros H; [reflexivity|]. cbn [m_get].
  destruct (k' =? k)%N eqn:E; [apply N.eqb_eq in E; subst; contradiction H; now left|]. apply IH. intros X. apply H. now right.
Qed.

Section Map.
Variable m0 : methods.
Variable allowed : relop -> bool.
Variable says : rule -> relop -> Prop.
Hypothesis T : table_for (Some m0) m0 allowed says.
Variable m : methods.
Hypothesis P : Permutation m m0.

Lemma nd : NoDup (map fst m).
Proof. destruct T as (_ & N & _). apply (Permutation_NoDup (l := map fst m0)); [apply Permutation_map; now symmetry|exact N]. Qed.
Lemma keys k r : In (k, r) m -> exists o, k = relop_const o /\ allowed o = true /\ says r o.
Proof. destruct T as (_ & _ & A & _). intros H. apply A. now apply (Permutation_in _ P). Qed.
Lemma key_not o : allowed o = false -> ~ In (relop_const o) (map fst m).
Proof.
  intros E H. apply in_map_iff in H. destruct H as ([k r] & E2 & H). cbn in E2. subst k.
  destruct (keys _ _ H) as (o' & E3 & E4 & _). apply relop_const_inj in E3. congruence.
Qed.
Lemma key_has o : allowed o = true -> exists r, In (relop_const o, r) m /\ says r o.
Proof.
  intros E. destruct T as (_ & _ & _ & B). specialize (B o E). apply in_map_iff in B.
  destruct B as ([k r] & E2 & H). cbn in E2. subst k.
  apply (Permutation_in _ (Permutation_sym P)) in H. exists r. split; [exact H|].
  destruct (keys _ _ H) as (o' & E3 & _ & S). apply relop_const_inj in E3. now subst o'.
Qed.
Lemma get_spec o : if allowed o then exists r, m_get m (relop_const o) = Some r /\ says r o else m_get m (relop_const o) = None.
Proof.
  destruct (allowed o) eqn:E.
  - destruct (key_has o E) as (r & H & S). exists r. split; [|exact S]. now apply m_get_in; [apply nd|].
  - now apply m_get_none, key_not.
Qed.
Lemma get_out n : (forall o, n <> relop_const o) -> m_get m n = None.
Proof.
  intros H. apply m_get_none. intros X. apply in_map_iff in X. destruct X as ([k r] & E & X). cbn in E. subst k.
  destruct (keys _ _ X) as (o & E & _). now apply (H o).
Qed.
Lemma range_none s : (forall o, allowed o = true -> ~ names_relop s o) -> range_methods s m = (badCop, None).
Proof.
  intros H. assert (K := keys). clear T P. induction m as [|[k r] m' IH]; [reflexivity|]. cbn [range_methods].
  destruct (K k r (or_introl eq_refl)) as (o & -> & A & _).
  destruct (strInSliceFold s _) eqn:E.
  - apply names_relop_iff in E. now contradiction (H o A).
  - apply IH. intros k' r' X. apply K. now right.
Qed.
Lemma range_some s o : allowed o = true -> names_relop s o ->
  exists r, range_methods s m = (relop_const o, Some r) /\ says r o.
Proof.
  intros A Hn. destruct (key_has o A) as (r0 & H0 & _). assert (K := keys). clear T P.
  induction m as [|[k r] m' IH]; [contradiction|]. cbn [range_methods].
  destruct (K k r (or_introl eq_refl)) as (o' & -> & A' & S').
  destruct (strInSliceFold s _) eqn:E.
  - apply names_relop_iff in E. rewrite <- (names_relop_inj s o o' Hn E) in *. now exists r.
  - destruct H0 as [X|X].
    + injection X as X _. apply relop_const_inj in X. subst o'. apply names_relop_iff in Hn. congruence.
    + apply IH; [exact X|]. intros k' r' Y. apply K. now right.
Qed.
Lemma range_spec s o : names_relop s o ->
  if allowed o then exists r, range_methods s m = (relop_const o, Some r) /\ says r o else range_methods s m = (0%N, None).
Proof.
  intros Hn. destruct (allowed o) eqn:E; [now apply range_some|]. apply range_none.
  intros o' A Hn'. rewrite (names_relop_inj s o o' Hn Hn') in E. congruence.
Qed.
Lemma mod_small o : Z.to_N (Z.of_N (relop_const o) mod 256) = relop_const o.
Proof. destruct o; reflexivity. Qed.
Lemma brm_int o : if allowed o then exists r, brm_index_int m (Z.of_N (relop_const o)) = (relop_const o, Some r) /\ says r o
  else brm_index_int m (Z.of_N (relop_const o)) = (0%N, None).
Proof.
  assert (G := get_spec o). unfold brm_index_int. rewrite mod_small. destruct (allowed o).
  - destruct G as (r & G & S). exists r. now rewrite G.
  - now rewrite G.
Qed.
Lemma trm_int o : trm_index_int m (Z.of_N (relop_const o)) = brm_index_int m (Z.of_N (relop_const o)).
Proof. unfold trm_index_int. destruct o; reflexivity. Qed.
Lemma brm_builds : builds (brm_index (Some m)) allowed says.
Proof.
  intros x o D. destruct x as [s|n|z|]; cbn [designates brm_index] in *; subst; try contradiction; try apply brm_int. now apply range_spec.
Qed.
Lemma trm_builds : builds (trm_index (Some m)) allowed says.
Proof.
  intros x o D. destruct x as [s|n|z|]; cbn [designates trm_index] in *; subst; try contradiction; rewrite ?trm_int; try apply brm_int. now apply range_spec.
Qed.
Lemma trm_only : finds_only (trm_index (Some m)).
Proof.
  intros x D. destruct x as [s|n|z|]; cbn [designates trm_index] in *; [|unfold trm_index_int|unfold trm_index_int|reflexivity].
  - apply range_none. intros o _. apply D.
  - destruct ((1 <=? Z.of_N n) && (Z.of_N n <=? 6))%Z eqn:E; [|reflexivity]. destruct (relop_of n) as (o & ->); [lia|]. now contradiction (D o).
  - destruct ((1 <=? z) && (z <=? 6))%Z eqn:E; [|reflexivity]. destruct (relop_of (Z.to_N z)) as (o & E2); [lia|]. contradiction (D o). rewrite <- E2. lia.
Qed.
(* bind tables reduce numbers modulo 256 *)
Lemma brm_number z : brm_index (Some m) (OInt z) = brm_index (Some m) (OInt (z mod 256)).
Proof. cbn [brm_index]. unfold brm_index_int. now rewrite Z.mod_mod by lia. Qed.
Lemma brm_only_partial x : (forall o, ~ designates x o) -> (forall z, x = OInt z -> 0 <= z < 256)%Z -> (forall n, x = OCop n -> n < 256)%N ->
  brm_index (Some m) x = (0%N, None).
Proof.
  intros D B1 B2. destruct x as [s|n|z|]; cbn [designates brm_index] in *; [|unfold brm_index_int|unfold brm_index_int|reflexivity].
  - apply range_none. intros o _. apply D.
  - specialize (B2 n eq_refl). rewrite Z.mod_small, N2Z.id by lia. now rewrite (get_out n D).
  - specialize (B1 z eq_refl). rewrite Z.mod_small by lia. rewrite get_out; [reflexivity|].
    intros o E. apply (D o). rewrite <- E. lia.
Qed.
End Map.
