(* Lemmas about the string functions of GoStr.v. *)
From Coq Require Import String Ascii List PeanoNat NArith ZArith Bool Lia.
From Verif Require Import GoStr.
Import ListNotations.
Open Scope string_scope.

Arguments String.eqb : simpl never.
Arguments Ascii.eqb : simpl never.

Lemma app_nil_r' s : s ++ "" = s.
Proof. induction s; cbn; [reflexivity|rewrite IHs; reflexivity]. Qed.
Lemma app_assoc' a b c : (a ++ b) ++ c = a ++ b ++ c.
Proof. induction a; cbn; [reflexivity|rewrite IHa; reflexivity]. Qed.
Lemma length_app a b : String.length (a ++ b) = (String.length a + String.length b)%nat.
Proof. induction a; cbn; [reflexivity|rewrite IHa; reflexivity]. Qed.
Lemma app_cons c a b : String c a ++ b = String c (a ++ b).
Proof. reflexivity. Qed.
Lemma cons_app c a : String c a = String c "" ++ a.
Proof. reflexivity. Qed.
Lemma app_inj_l p a b : p ++ a = p ++ b -> a = b.
Proof. induction p; cbn; intros H; [assumption|inversion H; auto]. Qed.
Lemma app_inj_len a b c d : a ++ b = c ++ d -> String.length a = String.length c -> a = c /\ b = d.
Proof.
  revert c. induction a as [|x a IH]; destruct c as [|y c]; cbn; intros H L; try discriminate.
  - auto.
  - inversion H; subst. destruct (IH c) as [-> ->]; [assumption|congruence|auto].
Qed.
Lemma app_inj_r a b p : a ++ p = b ++ p -> a = b.
Proof.
  intros H. apply (app_inj_len a p b p) in H; [tauto|].
  apply (f_equal String.length) in H. rewrite !length_app in H. lia.
Qed.
Lemma length0 s : String.length s = 0%nat -> s = "".
Proof. destruct s; [reflexivity|discriminate]. Qed.

(* all_bytes *)
Lemma all_bytes_app f a b : all_bytes f (a ++ b) = all_bytes f a && all_bytes f b.
Proof. induction a; cbn; [reflexivity|rewrite IHa, andb_assoc; reflexivity]. Qed.
Lemma all_bytes_impl f g s : (forall c, f c = true -> g c = true) ->
  all_bytes f s = true -> all_bytes g s = true.
Proof.
  intros H. induction s; cbn; [reflexivity|]. intros E.
  apply andb_true_iff in E as [A B]. rewrite (H _ A), (IHs B). reflexivity.
Qed.

Definition no_byte (c : ascii) (s : string) : bool :=
  all_bytes (fun d => negb (Ascii.eqb c d)) s.

Lemma no_byte_app c a b : no_byte c (a ++ b) = no_byte c a && no_byte c b.
Proof. apply all_bytes_app. Qed.
Lemma no_byte_cons c d s : no_byte c (String d s) = negb (Ascii.eqb c d) && no_byte c s.
Proof. reflexivity. Qed.

(* prefixes *)
Lemma has_prefix_app p s : has_prefix p (p ++ s) = true.
Proof. induction p; cbn; [destruct s; reflexivity|]. rewrite Ascii.eqb_refl. exact IHp. Qed.
Lemma has_prefix_spec p s : has_prefix p s = true <-> exists t, s = p ++ t.
Proof.
  split; [|intros [t ->]; apply has_prefix_app].
  revert s. induction p as [|a p IH]; cbn; intros s H; [exists s; reflexivity|].
  destruct s as [|b s]; [discriminate|].
  apply andb_true_iff in H as [A B]. apply Ascii.eqb_eq in A. subst.
  destruct (IH _ B) as [t ->]. exists t. reflexivity.
Qed.
Lemma has_prefix_false p s t : has_prefix p s = false -> s <> p ++ t.
Proof. intros H ->. rewrite has_prefix_app in H. discriminate. Qed.
Lemma sdrop_app p s : sdrop (String.length p) (p ++ s) = s.
Proof. induction p; cbn; [destruct s; reflexivity|assumption]. Qed.
Lemma stake_app p s : stake (String.length p) (p ++ s) = p.
Proof. induction p; cbn; [destruct s; reflexivity|congruence]. Qed.
Lemma sdrop_0 s : sdrop 0 s = s.
Proof. destruct s; reflexivity. Qed.
Lemma stake_sdrop n s : stake n s ++ sdrop n s = s.
Proof. revert s. induction n; destruct s; cbn; try reflexivity. rewrite IHn. reflexivity. Qed.
Lemma trim_prefix_app p s : trim_prefix (p ++ s) p = s.
Proof. unfold trim_prefix. rewrite has_prefix_app. apply sdrop_app. Qed.

(* index *)
Lemma idx_app c a b : no_byte c a = true -> idx c (a ++ String c b) = Some (String.length a).
Proof.
  induction a as [|d a IH]; cbn; intros H.
  - rewrite Ascii.eqb_refl. reflexivity.
  - apply andb_true_iff in H as [A B]. apply negb_true_iff in A. rewrite A, (IH B). reflexivity.
Qed.
Lemma idx_none c s : idx c s = None <-> no_byte c s = true.
Proof.
  induction s as [|d s IH]; [split; reflexivity|].
  rewrite no_byte_cons. cbn [idx].
  destruct (Ascii.eqb c d); cbn [negb andb]; [split; discriminate|].
  rewrite <- IH. destruct (idx c s); cbn; split; intros H; congruence.
Qed.
Lemma idx_some c s n : idx c s = Some n ->
  s = stake n s ++ String c (sdrop (S n) s) /\ no_byte c (stake n s) = true /\
  String.length (stake n s) = n.
Proof.
  revert n. induction s as [|d s IH]; cbn [idx]; intros n H; [discriminate|].
  destruct (Ascii.eqb_spec c d) as [->|N].
  - inversion H; subst. cbn. auto.
  - destruct (idx c s) as [m|]; cbn in H; [|discriminate]. inversion H; subst.
    destruct (IH m eq_refl) as (A & B & C). cbn [stake sdrop]. repeat split.
    + cbn [append]. f_equal. exact A.
    + rewrite no_byte_cons, B. destruct (Ascii.eqb_spec c d); [contradiction|reflexivity].
    + cbn. rewrite C. reflexivity.
Qed.

(* split and join *)
Lemma split1_nonnil c s : split1 c s <> [].
Proof. destruct s as [|d s]; cbn; [discriminate|]. destruct (Ascii.eqb c d); [discriminate|].
  destruct (split1 c s); discriminate. Qed.
Lemma split1_none c s : no_byte c s = true -> split1 c s = [s].
Proof.
  induction s as [|d s IH]; cbn; intros H; [reflexivity|].
  apply andb_true_iff in H as [A B]. apply negb_true_iff in A. rewrite A, (IH B). reflexivity.
Qed.
Lemma split1_app c a b : no_byte c a = true -> split1 c (a ++ String c b) = a :: split1 c b.
Proof.
  induction a as [|d a IH]; cbn; intros H.
  - rewrite Ascii.eqb_refl. reflexivity.
  - apply andb_true_iff in H as [A B]. apply negb_true_iff in A. rewrite A, (IH B). reflexivity.
Qed.
Lemma join_cons sep x y l : join sep (x :: y :: l) = x ++ sep ++ join sep (y :: l).
Proof. reflexivity. Qed.
Lemma split1_join c l : l <> [] -> (forall x, In x l -> no_byte c x = true) ->
  split1 c (join (String c "") l) = l.
Proof.
  induction l as [|x l IH]; intros N H; [contradiction|].
  destruct l as [|y l].
  - cbn [join]. apply split1_none, H. left; reflexivity.
  - rewrite join_cons. rewrite (app_cons c "").
    change ("" ++ join (String c "") (y :: l)) with (join (String c "") (y :: l)).
    rewrite split1_app by (apply H; left; reflexivity).
    rewrite IH; [reflexivity|discriminate|]. intros z Hz. apply H. right. assumption.
Qed.
Lemma join_split1 c s : join (String c "") (split1 c s) = s.
Proof.
  induction s as [|d s IH]; cbn; [reflexivity|].
  destruct (Ascii.eqb_spec c d) as [->|N].
  - destruct (split1 d s) eqn:E; [exfalso; apply (split1_nonnil d s E)|].
    rewrite join_cons, IH. reflexivity.
  - destruct (split1 c s) as [|h t] eqn:E; [exfalso; apply (split1_nonnil c s E)|].
    rewrite <- IH. destruct t; reflexivity.
Qed.
Lemma split1_no c s x : In x (split1 c s) -> no_byte c x = true.
Proof.
  revert x. induction s as [|d s IH]; cbn; intros x H.
  - destruct H as [<-|[]]; reflexivity.
  - destruct (Ascii.eqb_spec c d) as [->|N].
    + destruct H as [<-|H]; [reflexivity|apply IH, H].
    + destruct (split1 c s) as [|h t]; [destruct H as [<-|[]]|].
      * cbn. destruct (Ascii.eqb_spec c d); [contradiction|reflexivity].
      * destruct H as [<-|H].
        -- rewrite no_byte_cons, (IH h (or_introl eq_refl)).
           destruct (Ascii.eqb_spec c d); [contradiction|reflexivity].
        -- apply IH. right. assumption.
Qed.
Lemma join_inj c l l' : l <> [] -> l' <> [] ->
  (forall x, In x l -> no_byte c x = true) -> (forall x, In x l' -> no_byte c x = true) ->
  join (String c "") l = join (String c "") l' -> l = l'.
Proof.
  intros A B C D H. rewrite <- (split1_join c l), <- (split1_join c l') by assumption.
  rewrite H. reflexivity.
Qed.
Lemma no_byte_join c sep l : no_byte c sep = true -> (forall x, In x l -> no_byte c x = true) ->
  no_byte c (join sep l) = true.
Proof.
  intros S. induction l as [|x l IH]; intros H; [reflexivity|].
  destruct l as [|y l]; [apply H; left; reflexivity|].
  rewrite join_cons, !no_byte_app, S, IH, (H x (or_introl eq_refl)); [reflexivity|].
  intros z Hz. apply H. right. assumption.
Qed.

(* removal *)
Lemma remove_none c s : no_byte c s = true -> remove_byte c s = s.
Proof.
  induction s as [|d s IH]; cbn; intros H; [reflexivity|].
  apply andb_true_iff in H as [A B]. apply negb_true_iff in A. rewrite A, (IH B). reflexivity.
Qed.
Lemma remove_no c s : no_byte c (remove_byte c s) = true.
Proof.
  induction s as [|d s IH]; cbn [remove_byte]; [reflexivity|].
  destruct (Ascii.eqb_spec c d); [assumption|]. rewrite no_byte_cons, IH.
  destruct (Ascii.eqb_spec c d); [contradiction|reflexivity].
Qed.
Lemma remove_app c a b : remove_byte c (a ++ b) = remove_byte c a ++ remove_byte c b.
Proof. induction a as [|d a IH]; cbn; [reflexivity|]. destruct (Ascii.eqb c d); cbn; rewrite IH; reflexivity. Qed.

(* reversal *)
Lemma srev_app_spec s acc : srev_app s acc = srev s ++ acc.
Proof.
  unfold srev. revert acc. induction s as [|c s IH]; intros acc; cbn; [reflexivity|].
  rewrite IH, (IH (String c "")), app_assoc'. reflexivity.
Qed.
Lemma srev_cons c s : srev (String c s) = srev s ++ String c "".
Proof. unfold srev at 1. cbn. apply srev_app_spec. Qed.
Lemma srev_append a b : srev (a ++ b) = srev b ++ srev a.
Proof.
  induction a as [|c a IH]; cbn [append].
  - change (srev "") with "". rewrite app_nil_r'. reflexivity.
  - rewrite !srev_cons, IH, app_assoc'. reflexivity.
Qed.
Lemma srev_involutive s : srev (srev s) = s.
Proof. induction s as [|c s IH]; [reflexivity|]. rewrite srev_cons, srev_append, IH. reflexivity. Qed.
Lemma srev_length s : String.length (srev s) = String.length s.
Proof. induction s; [reflexivity|]. rewrite srev_cons, length_app, IHs. cbn. lia. Qed.
Lemma has_suffix_spec p s : has_suffix p s = true <-> exists t, s = t ++ p.
Proof.
  unfold has_suffix. rewrite has_prefix_spec. split; intros [t H].
  - exists (srev t). rewrite <- (srev_involutive s), H, srev_append, srev_involutive. reflexivity.
  - exists (srev t). rewrite H, srev_append. reflexivity.
Qed.
