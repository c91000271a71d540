(* Lemmas on keyword and operator lookup (C17). *)
From Coq Require Import String Ascii List PeanoNat NArith ZArith Bool Permutation Lia.
From Verif Require Import GoStr GoStrFacts MMisc MKw SKw.
Import ListNotations.
Open Scope string_scope.

Arguments fold_key : simpl never.
Arguments eqfold : simpl never.
Arguments lc : simpl never.

Lemma eqfold_iff a b : eqfold a b = true <-> fold_key a = fold_key b.
Proof. unfold eqfold. apply String.eqb_eq. Qed.
Lemma eqfold_refl a : eqfold a a = true.
Proof. now apply eqfold_iff. Qed.
Lemma eqfold_sym a b : eqfold a b = eqfold b a.
Proof. unfold eqfold. apply String.eqb_sym. Qed.

(* lookup in a table whose names are distinct under folding *)
Lemma tbl_match_in t : NoDup (map (fun e => fold_key (snd e)) t) ->
  forall k v s, In (k, v) t -> eqfold s v = true -> tbl_match t s = k.
Proof.
  induction t as [|[k' v'] t IH]; intros ND k v s Hin E; [contradiction|].
  inversion ND as [|? ? Hn ND']; subst. cbn [tbl_match]. destruct Hin as [H|H].
  - injection H as -> ->. now rewrite E.
  - destruct (eqfold s v') eqn:E'.
    + exfalso. apply Hn. apply in_map_iff. exists (k, v). split; [|easy].
      apply eqfold_iff in E, E'. cbn. congruence.
    + now apply (IH ND' k v).
Qed.
Lemma tbl_match_none (t : list (N * string)) s : (forall k v, In (k, v) t -> eqfold s v = false) -> tbl_match t s = 0%N.
Proof.
  induction t as [|[k v] t IH]; intros H; [easy|]. cbn [tbl_match].
  rewrite (H k v); [|now left]. apply IH. intros k' v' Hi. apply (H k'). now right.
Qed.
Lemma tbl_match_cases (t : list (N * string)) s :
  (exists k v, In (k, v) t /\ eqfold s v = true) \/ (forall k v, In (k, v) t -> eqfold s v = false).
Proof.
  induction t as [|[k v] t IH]; [right; intros ? ? []|].
  destruct (eqfold s v) eqn:E.
  - left. exists k, v. split; [now left|easy].
  - destruct IH as [(k' & v' & Hi & E')|IH].
    + left. exists k', v'. split; [now right|easy].
    + right. intros k' v' [H|H]; [injection H as -> ->; easy|eauto].
Qed.

(* one lemma for the three keyword tables *)
Section Table.
Variable K : Type.
Variables (name : K -> string) (const : K -> N) (all : list K).
Variable tbl : list (N * string).
Hypothesis all_in : forall k, In k all.
Hypothesis tbl_all : Permutation tbl (map (fun k => (const k, name k)) all).
Hypothesis names_nodup : NoDup (map (fun k => fold_key (name k)) all).
Hypothesis const_pos : forall k, const k <> 0%N.

Lemma table_lookup t : Permutation t tbl -> forall s,
  (forall k, tbl_match t s = const k /\ eqfold s (name k) = true \/
             tbl_match t s <> const k /\ eqfold s (name k) = false \/
             (exists k', const k' = const k /\ eqfold s (name k') = true)) /\
  (tbl_match t s = 0%N <-> forall k, eqfold s (name k) = false) /\
  (forall k, eqfold s (name k) = true -> tbl_match t s = const k).
Proof.
  intros P s. assert (P' := Permutation_trans P tbl_all).
  assert (ND : NoDup (map (fun e => fold_key (snd e)) t)).
  { eapply Permutation_NoDup; [apply Permutation_sym, Permutation_map, P'|].
    rewrite map_map. exact names_nodup. }
  assert (IN : forall k, In (const k, name k) t).
  { intros k. eapply Permutation_in; [apply Permutation_sym, P'|].
    apply in_map_iff. exists k. split; auto. }
  assert (OUT : forall n v, In (n, v) t -> exists k, n = const k /\ v = name k).
  { intros n v H. apply (Permutation_in _ P') in H. apply in_map_iff in H.
    destruct H as (k & E & _). injection E as <- <-. now exists k. }
  assert (HIT : forall k, eqfold s (name k) = true -> tbl_match t s = const k).
  { intros k E. now apply (tbl_match_in t ND _ (name k)). }
  split; [|split]; [| |exact HIT].
  - intros k. destruct (eqfold s (name k)) eqn:E; [left; auto|right].
    destruct (N.eq_dec (tbl_match t s) (const k)) as [E'|E']; [right|left; auto].
    destruct (tbl_match_cases t s) as [(n & v & Hi & Ev)|Hn].
    + destruct (OUT _ _ Hi) as (k' & -> & ->). exists k'. split; [|easy].
      rewrite <- E'. symmetry. auto.
    + rewrite (tbl_match_none t s Hn) in E'. exfalso. now apply (const_pos k).
  - split.
    + intros H k. destruct (eqfold s (name k)) eqn:E; [|easy].
      rewrite (HIT k E) in H. exfalso. now apply (const_pos k).
    + intros H. apply tbl_match_none. intros n v Hi.
      destruct (OUT _ _ Hi) as (k & -> & ->). apply H.
Qed.

Hypothesis const_inj : forall k k', const k = const k' -> k = k'.
Lemma table_bijection t : Permutation t tbl -> forall s,
  (forall k, tbl_match t s = const k <-> eqfold s (name k) = true) /\
  (tbl_match t s = 0%N <-> forall k, eqfold s (name k) = false).
Proof.
  intros P s. destruct (table_lookup t P s) as (A & B & C). split; [|exact B].
  intros k. split; [|apply C]. intros E.
  destruct (A k) as [[_ H]|[[H _]|(k' & H & H')]]; [easy|contradiction|].
  now apply const_inj in H as <-.
Qed.
End Table.

Ltac nodup_strings := repeat constructor; cbn [In]; intuition discriminate.
Ltac nodup_fold := vm_compute; nodup_strings.

Definition all_bindkw := [UserDN; RoleDN; GroupDN; UserAttr; GroupAttr; IPAddr; DNSName;
                          DayOfWeek; TimeOfDay; AuthMethod; StrengthFactor].
Definition all_targetkw := [TgTarget; TgTo; TgAttr; TgCtrl; TgFrom; TgScope; TgFilter;
                            TgAttrFilters; TgExtOp].
Definition all_bindtype := [BtUser; BtRole; BtSelf; BtGroup; BtURL].

Lemma bindkw_lookup t : Permutation t bkwMap -> forall s,
  (forall k, tbl_match t s = bindkw_const k <-> eqfold s (bindkw_name k) = true) /\
  (tbl_match t s = 0%N <-> forall k, eqfold s (bindkw_name k) = false).
Proof.
  apply (table_bijection bindkw bindkw_name bindkw_const all_bindkw bkwMap).
  - intros []; cbn; tauto.
  - reflexivity.
  - nodup_fold.
  - now intros [].
  - now intros [] [].
Qed.
Lemma targetkw_lookup t : Permutation t tkwMap -> forall s,
  (forall k, tbl_match t s = targetkw_const k <-> eqfold s (targetkw_name k) = true) /\
  (tbl_match t s = 0%N <-> forall k, eqfold s (targetkw_name k) = false).
Proof.
  apply (table_bijection targetkw targetkw_name targetkw_const all_targetkw tkwMap).
  - intros []; cbn; tauto.
  - reflexivity.
  - nodup_fold.
  - now intros [].
  - now intros [] [].
Qed.
Lemma bindtype_lookup t : Permutation t btMap -> forall s,
  (forall k, tbl_match t s = bindtype_const k <-> eqfold s (bindtype_name k) = true) /\
  (tbl_match t s = 0%N <-> forall k, eqfold s (bindtype_name k) = false).
Proof.
  apply (table_bijection bindtype bindtype_name bindtype_const all_bindtype btMap).
  - intros []; cbn; tauto.
  - reflexivity.
  - nodup_fold.
  - now intros [].
  - now intros [] [].
Qed.

(* operators *)
Definition all_relop := [REq; RNe; RLt; RLe; RGt; RGe].
Lemma all_relop_in o : In o all_relop.
Proof. destruct o; cbn; tauto. Qed.
Lemma names_relop_iff s o : names_relop s o <->
  strInSliceFold s [cop_string (relop_const o); cop_context (relop_const o); cop_description (relop_const o)] = true.
Proof.
  unfold names_relop. cbn [strInSliceFold]. rewrite orb_false_r, !orb_true_iff.
  destruct o; reflexivity.
Qed.
Lemma names_relop_inj s o o' : names_relop s o -> names_relop s o' -> o = o'.
Proof.
  unfold names_relop. rewrite !eqfold_iff. intros H H'.
  assert (E : exists n n', In n [relop_symbol o; relop_short o; relop_long o] /\
                           In n' [relop_symbol o'; relop_short o'; relop_long o'] /\
                           fold_key n = fold_key n').
  { destruct H as [H|[H|H]], H' as [H'|[H'|H']];
      (eexists; eexists; split; [|split; [|rewrite <- H; exact H']]; cbn; tauto). }
  destruct E as (n & n' & Hn & Hn' & E). clear H H'.
  destruct o, o'; try reflexivity; exfalso;
    repeat destruct Hn as [<-|Hn]; try contradiction;
    repeat destruct Hn' as [<-|Hn']; try contradiction; discriminate E.
Qed.
Lemma cop_match_spec t : Permutation t copTable -> forall s,
  (forall o, cop_match t s = relop_const o <-> names_relop s o) /\
  (cop_match t s = 0%N <-> forall o, ~ names_relop s o).
Proof.
  intros P s.
  assert (IN : forall n, In n t <-> exists o, n = relop_const o).
  { intros n. split.
    - intros H. apply (Permutation_in _ P) in H. unfold copTable in H. cbn [In] in H.
      repeat destruct H as [<-|H]; try contradiction;
        [exists REq|exists RNe|exists RLt|exists RLe|exists RGt|exists RGe]; reflexivity.
    - intros [o ->]. eapply Permutation_in; [apply Permutation_sym, P|].
      destruct o; cbn; tauto. }
  clear P.
  assert (KEY : (exists o, In (relop_const o) t /\ names_relop s o /\ cop_match t s = relop_const o) \/
                ((forall o, In (relop_const o) t -> ~ names_relop s o) /\ cop_match t s = 0%N)).
  { assert (SUB : forall n, In n t -> exists o, n = relop_const o) by (intros; now apply IN).
    clear IN. induction t as [|n t IH]; [right; split; [intros ? []|easy]|].
    destruct (SUB n) as [o ->]; [now left|].
    cbn [cop_match].
    destruct (strInSliceFold s _) eqn:E.
    - left. exists o. split; [now left|]. split; [now apply names_relop_iff|easy].
    - destruct IH as [(o' & Hi & Hn & He)|[Hn He]]; [intros; apply SUB; now right| |].
      + left. exists o'. split; [now right|auto].
      + right. split; [|easy]. intros o' [H|H]; [|now apply Hn].
        assert (o = o') as <- by (destruct o, o'; congruence || discriminate H).
        rewrite names_relop_iff, E. discriminate. }
  destruct KEY as [(o & _ & Hn & ->)|[Hn ->]]; split.
  - intros o'. split.
    + intros H. assert (o = o') as <- by (destruct o, o'; congruence || discriminate H). easy.
    + intros H. f_equal. now apply (names_relop_inj s).
  - split; [destruct o; discriminate|]. intros H. now destruct (H o).
  - intros o. split; [destruct o; discriminate|]. intros H. exfalso.
    apply (Hn o); [apply IN; now exists o|easy].
  - split; [intros _ o|easy]. apply Hn. apply IN. now exists o.
Qed.

Lemma allows_bind k o : bindKeywordAllows (bindkw_const k) (relop_const o) = bindkw_allows k o.
Proof. destruct k, o; reflexivity. Qed.
Lemma allows_target k o : targetKeywordAllows (targetkw_const k) (relop_const o) = targetkw_allows k o.
Proof. destruct k, o; reflexivity. Qed.
