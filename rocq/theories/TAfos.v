(* C139: AFOs(x...) against AFOs().Push(x...). *)
From Coq Require Import String Ascii List PeanoNat NArith Bool Lia.
From Verif Require Import GoStr GoStrFacts MMisc MKw MAttr MLists MFilter MAfos SLists SFilter PLists PFilter TFilter.
Import ListNotations.
Open Scope string_scope.

(* A text is taken by Push and passed over by the constructor, whatever the stack
   library does after a refusal. *)
Theorem C139_refuted : forall stop,
  ~ (forall xs, AFOs stop xs = afos_push AFOs0 xs).
Proof. intros stop H. specialize (H [ASStr "add=cn:(cn=a)"]). destruct stop; vm_compute in H; discriminate H. Qed.
(* ... so a text in front can also keep out the operations behind it *)
Theorem C139_lost_refuted : exists xs o, In (ASOp o) xs /\ afo_mem o <> [] /\
  afos_mem (AFOs true xs) = [] /\ afos_mem (AFOs false xs) = [o].
Proof.
  exists [ASStr "add=cn:(cn=a)"; ASOp (aop_AFO AddOp [AOStr "sn:(sn=b)"])], (aop_AFO AddOp [AOStr "sn:(sn=b)"]).
  split; [right; now left|]. split; [vm_compute; discriminate|]. split; reflexivity.
Qed.

(* what the constructor holds: the operations among the arguments, in order, each
   with a member and a text of its own; behind the first refused argument either
   nothing more or the same again *)
Definition takes (l : list afo) (x : asarg) : Prop :=
  exists o, x = ASOp o /\ afo_mem o <> [] /\ forall y, In y l -> afo_string y <> afo_string o.
Lemma policy_takes l o : afos_policy l o = true <-> takes l (ASOp o).
Proof.
  unfold afos_policy, afos_contains. split.
  - destruct (existsb _ l) eqn:E; [discriminate|]. intros L. exists o. split; [reflexivity|]. split.
    + intros N. rewrite N in L. discriminate.
    + intros y I S. rewrite existsb_false in E. specialize (E y I). rewrite S, String.eqb_refl in E. discriminate.
  - intros (o' & [= <-] & N & H). destruct (existsb _ l) eqn:E.
    + apply existsb_exists in E as (y & I & S). apply String.eqb_eq in S. now destruct (H y I).
    + destruct (afo_mem o); [now destruct N|reflexivity].
Qed.
Inductive gives (stop : bool) : list afo -> list asarg -> list afo -> Prop :=
| g_end : forall l, gives stop l [] l
| g_take : forall l o xs r, takes l (ASOp o) -> gives stop (l ++ [o]) xs r -> gives stop l (ASOp o :: xs) r
| g_stop : forall l x xs, stop = true -> ~ takes l x -> gives stop l (x :: xs) l
| g_skip : forall l x xs r, stop = false -> ~ takes l x -> gives stop l xs r -> gives stop l (x :: xs) r.
Lemma take_yes l o : takes l (ASOp o) -> afos_take l (ASOp o) = (l ++ [o])%list.
Proof. intros T. apply policy_takes in T. cbn [afos_take]. unfold push1. now rewrite T. Qed.
Lemma take_no l x : ~ takes l x -> afos_take l x = l.
Proof.
  intros T. destruct x as [s|o|]; try reflexivity. cbn [afos_take]. unfold push1. destruct (afos_policy l o) eqn:P; [|reflexivity].
  destruct T. now apply policy_takes.
Qed.
Lemma takes_dec l x : takes l x \/ ~ takes l x.
Proof.
  destruct x as [s|o|]; try (right; intros (o & E & _); discriminate E).
  destruct (afos_policy l o) eqn:P; [left; now apply policy_takes|right; rewrite <- policy_takes; now rewrite P].
Qed.
Theorem C139_exact : forall stop xs l, afos_mem (AFOs stop xs) = l <-> gives stop [] xs l.
Proof.
  intros stop xs l. cbn [afos_mem AFOs]. generalize (@nil afo). revert l.
  induction xs as [|x xs IH]; intros r l; cbn [push_many].
  - split; [intros ->; constructor|inversion 1; now subst].
  - destruct (takes_dec l x) as [T|T].
    + assert (T' := T). destruct T' as (o & -> & _). rewrite take_yes by exact T. rewrite app_length. cbn [List.length].
      replace (List.length l + 1 =? List.length l)%nat with false by (symmetry; apply Nat.eqb_neq; lia). rewrite andb_false_r, IH. split.
      * intros G. now apply g_take.
      * inversion 1; subst; trivial; contradiction.
    + rewrite take_no by exact T. rewrite Nat.eqb_refl, andb_true_r. destruct stop.
      * split; [intros ->; now apply g_stop|inversion 1; subst; trivial; try contradiction; discriminate].
      * rewrite IH. split; [intros G; now apply g_skip|inversion 1; subst; trivial; try contradiction; discriminate].
Qed.
(* the members are never empty and have different texts *)
Theorem C139_members : forall stop xs,
  (forall o, In o (afos_mem (AFOs stop xs)) -> In (ASOp o) xs /\ afo_mem o <> []) /\ NoDup (map afo_string (afos_mem (AFOs stop xs))).
Proof.
  intros stop xs. destruct (C139_exact stop xs (afos_mem (AFOs stop xs))) as [G _]. specialize (G eq_refl). revert G.
  generalize (afos_mem (AFOs stop xs)). intros r G.
  assert (K : forall l, gives stop l xs r -> NoDup (map afo_string l) ->
    (forall o, In o r -> In o l \/ (In (ASOp o) xs /\ afo_mem o <> [])) /\ NoDup (map afo_string r)).
  { clear G. intros l G. induction G as [l|l o xs r T G IH|l x xs S T|l x xs r S T G IH]; intros D.
    - split; [now left|exact D].
    - destruct T as (o' & [= <-] & N & H). destruct IH as [A B].
      + rewrite map_app. apply NoDup_snoc; [exact D|]. intros I. apply in_map_iff in I as (y & E & I). now apply (H y I).
      + split; [|exact B]. intros y I. destruct (A y I) as [J|[J M]]; [|right; split; [now right|exact M]].
        apply in_app_iff in J as [J|[<-|[]]]; [now left|right]. split; [now left|exact N].
    - split; [now left|exact D].
    - destruct (IH D) as [A B]. split; [|exact B]. intros y I. destruct (A y I) as [J|[J M]]; [now left|right; split; [now right|exact M]]. }
  destruct (K [] G) as [A B]; [constructor|]. split; [|exact B]. intros o I. destruct (A o I) as [[]|J]. exact J.
Qed.
(* for operations that have members and texts of their own the two agree *)
Theorem C139_partial : forall stop os, (forall o, In o os -> afo_mem o <> []) -> NoDup (map afo_string os) ->
  AFOs stop (map ASOp os) = afos_push AFOs0 (map ASOp os) /\ afos_mem (AFOs stop (map ASOp os)) = os.
Proof.
  intros stop os N D.
  assert (K : forall l, (forall o, In o os -> afo_mem o <> []) -> NoDup (map afo_string (l ++ os)) ->
    push_many stop afos_take l (map ASOp os) = (l ++ os)%list /\ afos_push (MkAFOs "," l) (map ASOp os) = MkAFOs "," (l ++ os)%list).
  { clear N D. induction os as [|o os IH]; intros l N D; cbn [map push_many].
    - rewrite app_nil_r. split; reflexivity.
    - assert (T : takes l (ASOp o)).
      { exists o. split; [reflexivity|]. split; [apply N; now left|]. intros y I E. rewrite map_app in D. cbn [map] in D.
        apply NoDup_remove_2 in D. apply D, in_app_iff. left. rewrite <- E. now apply in_map. }
      rewrite take_yes by exact T. rewrite app_length. cbn [List.length].
      replace (List.length l + 1 =? List.length l)%nat with false by (symmetry; apply Nat.eqb_neq; lia). rewrite andb_false_r.
      destruct (IH (l ++ [o])%list) as [A B]; [intros y I; apply N; now right|now rewrite <- app_assoc|].
      rewrite <- app_assoc in A, B. split; [exact A|]. unfold afos_push in *. cbn [fold_left afos_push1 afos_delim afos_mem].
      unfold push1. apply policy_takes in T. rewrite T. exact B. }
  destruct (K [] N D) as [A B]. split; [|exact A]. unfold AFOs. rewrite A. symmetry. exact B.
Qed.
Print Assumptions C139_refuted.
Print Assumptions C139_lost_refuted.
Print Assumptions C139_exact.
Print Assumptions C139_members.
Print Assumptions C139_partial.
Example C139_witness :
  let a := aop_AFO AddOp [AOStr "cn:(cn=a)"] in let b := aop_AFO DelOp [AOStr "cn:(cn=a)"] in
  AFOs true (map ASOp [a; b]) = afos_push AFOs0 (map ASOp [a; b]) /\
  afos_string (AFOs true (map ASOp [a; b])) = "add=cn:(cn=a),delete=cn:(cn=a)" /\
  afos_mem (AFOs true [ASOp a; ASOp a; ASOp b]) = [a] /\ afos_mem (AFOs false [ASOp a; ASOp a; ASOp b]) = [a; b].
Proof. repeat split; reflexivity. Qed.
