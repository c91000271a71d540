(* C81, C84, C92, further. *)
From Coq Require Import String Ascii List PeanoNat NArith ZArith Bool Lia.
From Verif Require Import GoStr GoStrFacts Shifty MMisc SMisc MAttr MKw SKw MRights SRights MLevels MLists MFilter MRule MConv MTree STree MAci MView MMeth MInfo
  TMisc TRights TTree TAci TView.
Import ListNotations.
Open Scope string_scope.

(* Values of other types are in no list of filters and in no list of operations. *)
Theorem C81_others : forall l m n,
  afo_Contains l (AOOp n) = false /\ afo_Contains l AOOther = false /\ afos_Contains m ASOther = false.
Proof. intros [|f l] [|o m] n; repeat split. Qed.

(* Bind rules whose outermost word is neither and, or nor not: refused if the zero stack
   has no text; otherwise accepted, and the receiver becomes the zero value. *)
Theorem C84_bind_unknown : forall W brs r raw k p ks, is_ascii raw = true ->
  brs (join " " (words (trim_space raw))) = Some (PStk k p ks) -> known_kind k = false ->
  BindRules_Parse W brs r raw = if String.eqb (w_zero W) "" then Some (r, false) else Some (None, true).
Proof.
  intros W brs r raw k p ks A B K. unfold BindRules_Parse, parseBindRules. rewrite (C43_words raw A), B.
  destruct (C42_unknown (w_env W) (w_pad W) (w_notsep W) (w_zero W) k p ks K) as [E1 E2].
  destruct (String.eqb_spec (w_zero W) "") as [Z|Z]; [now rewrite (E1 Z)|now rewrite (E2 Z)].
Qed.

(* The constructor a list of operations gives makes, of an operation and filters that are
   complete and differ, the operation with these filters. *)
Lemma push_distinct fs op l : Forall (fun f => af_valid f = true) fs -> NoDup (map af_string l ++ map af_string fs)%list ->
  afo_push (MkAFO op l) (map AOFilter fs) = MkAFO op (l ++ fs)%list.
Proof.
  intros V. revert l. induction V as [|f fs V F IH]; intros l N; [now rewrite app_nil_r|].
  cbn [map]. unfold afo_push. cbn [fold_left afo_push1 afo_op afo_mem].
  assert (P : afo_policy l f = true).
  { unfold afo_policy, afo_contains. destruct (existsb _ l) eqn:E; [|exact V].
    apply existsb_exists in E as (g & I & E). apply String.eqb_eq in E. cbn [map] in N. apply NoDup_remove_2 in N. destruct N.
    apply in_or_app. left. rewrite <- E. now apply in_map. }
  unfold push1. rewrite P. fold (afo_push (MkAFO op (l ++ [f])%list) (map AOFilter fs)). rewrite IH; [now rewrite <- app_assoc|].
  cbn [map] in N. rewrite map_app. cbn [map]. now rewrite <- app_assoc.
Qed.
Theorem C92_operations : forall l op fs, Forall (fun f => af_valid f = true) fs -> NoDup (map af_string fs) ->
  afo_string (afos_F l (AOOp op :: map AOFilter fs)) =
    (if (op =? DelOp)%N then "delete=" else "add=") ++ join " && " (map af_string fs).
Proof.
  intros l op fs V N. unfold afos_F, AFO, afo_push. cbn [fold_left afo_push1 afo_mem].
  fold (afo_push (MkAFO (aop_label op) []) (map AOFilter fs)). rewrite push_distinct; [|exact V|exact N].
  unfold afo_string. cbn [afo_op afo_mem app]. unfold aop_label, aop_string. now destruct (op =? DelOp)%N.
Qed.
Example C92_operations_witness :
  let f s := AF [FAT (AT s); FSF (Filter ["(" ++ s ++ "=a)"])] in
  Forall (fun x => af_valid x = true) [f "cn"; f "sn"] /\ NoDup (map af_string [f "cn"; f "sn"]) /\
  afo_string (afos_F None [AOOp DelOp; AOFilter (f "cn"); AOFilter (f "sn")]) = "delete=cn:(cn=a) && sn:(sn=a)".
Proof.
  cbv zeta. split; [repeat constructor|]. split; [|reflexivity]. constructor; [intros [H|[]]; discriminate H|]. repeat constructor. intros [].
Qed.
Print Assumptions C81_others.
Print Assumptions C84_bind_unknown.
Print Assumptions C92_operations.
