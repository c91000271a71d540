(* C137: what a variable prints is the text of the value it stands for. *)
From Coq Require Import String Ascii List PeanoNat NArith ZArith Bool Lia.
From Verif Require Import GoStr GoStrFacts Shifty MMisc MKw MRights MLists MRule MConv MTree MHeap MAci SAci PAci TTree TAci MWhole SWhole SWholeR PTree PWhole.
Import ListNotations.
Open Scope string_scope.

Theorem C137_shows : forall W s x n, s_var s x = Some n ->
  (forall d v, perm_v s x = PSome d v -> shown W s x = Some (perm_string (e_shifty (w_env W)) (PSome d v))) /\
  (forall c, rule_v s x = Some c -> shown W s x = Some (br_string (Some c))) /\
  (forall c, target_v s x = Some c -> shown W s x = Some (tr_string (Some c))) /\
  (forall t, tree_v s x = Some t -> is_stack t -> shown W s x = Some (brs_string (w_topnot W) (w_notsep W) t)) /\
  (forall r, pbr_v s x = Some (Some r) -> shown W s x = Some (pbr_string W (Some r))) /\
  (forall l, pbrs_at (s_heap s) n = Some l -> shown W s x = Some (pbrs_string W l)) /\
  (forall b l, trs_at (s_heap s) n = Some (b, l) -> shown W s x = Some (trs_string b l)) /\
  (forall b i, ins_at (s_heap s) n = Some (b, i) ->
     exists rest, ins_string W (Some i) = trs_string false (i_trs i) ++ rest /\ shown W s x = Some (trs_string b (i_trs i) ++ rest)).
Proof.
  intros W s x n V. unfold perm_v, rule_v, target_v, tree_v, pbr_v, shown, rule_at, perm_at, rd, text_at. rewrite V.
  split; [|split; [|split; [|split; [|split; [|split; [|split]]]]]].
  - intros d v. destruct (nth_error (s_heap s) n) as [[]|]; try discriminate. now intros [= <- <-].
  - intros c. destruct (nth_error (s_heap s) n) as [[]|]; try discriminate. now intros [= <-].
  - intros c. unfold tr_at. destruct (nth_error (s_heap s) n) as [[]|]; try discriminate. now intros [= <-].
  - intros t T I. pose proof T as T0. destruct (List.length (s_heap s)) as [|f]; [discriminate|]. cbn [tree_at] in T.
    destruct (nth_error (s_heap s) n) as [[]|]; try discriminate; [injection T as <-; destruct I|]. now rewrite T0.
  - intros r. unfold pbr_at. destruct (nth_error (s_heap s) n) as [e|] eqn:E; [|discriminate].
    destruct e as [| | |p b| | | | |]; try discriminate. intros H. destruct b as [b|]; [destruct (bctx_at (s_heap s) b)|]; cbn in H |- *; try discriminate; now injection H as <-.
  - intros l P. pose proof P as P0. unfold pbrs_at in P0. destruct (nth_error (s_heap s) n) as [[]|]; try discriminate. now rewrite P.
  - intros b l P. pose proof P as P0. unfold trs_at in P0. destruct (nth_error (s_heap s) n) as [[]|]; try discriminate. now rewrite P.
  - intros b i P. pose proof P as P0. unfold ins_at in P0. destruct (nth_error (s_heap s) n) as [[]|]; try discriminate.
    unfold itext. rewrite P. eexists. split; reflexivity.
Qed.
(* and a list of instructions prints its members one per line *)
Theorem C137_shows_list : forall W s x n ks ts, s_var s x = Some n -> nth_error (s_heap s) n = Some (NInss ks) ->
  map (text_at W (s_heap s)) ks = map Some ts -> (forall k, In k ks -> exists a t p, nth_error (s_heap s) k = Some (NIns a t p)) ->
  shown W s x = Some (join newline ts).
Proof.
  intros W s x n ks ts V E T K. unfold shown. rewrite V. unfold text_at at 1. rewrite E.
  assert (A : map (itext W (s_heap s)) ks = map Some ts).
  { rewrite <- T. apply map_ext_in. intros k I. destruct (K k I) as (a & t & p & N). unfold text_at. now rewrite N. }
  rewrite A. replace (all (map Some ts)) with (Some ts); [reflexivity|]. clear. induction ts as [|t ts IH]; [reflexivity|]. cbn [map all]. now rewrite <- IH.
Qed.
Print Assumptions C137_shows.
Print Assumptions C137_shows_list.
(* a spaced list of target rules: the text differs from the unspaced one *)
Definition sHeap : heap := [NTr (MkCond "targetscope" (Some Eq) (Some (XText "base")) true false true);
  NTr (MkCond "targetfilter" (Some Eq) (Some (XText "(a=b)")) true false true); NTrs true [0; 1]; NPbrs []; NIns "l" 2 3]%nat.
Example C137_shows_witness :
  exists i, ins_at sHeap 4 = Some (true, i) /\
  ins_string W0 (Some i) = "( targetscope = ""base"" )( targetfilter = ""(a=b)"" )(version 3.0; acl ""l""; )" /\
  text_at W0 sHeap 4 = Some "( targetscope = ""base"" ) ( targetfilter = ""(a=b)"" )(version 3.0; acl ""l""; )".
Proof. eexists. split; [reflexivity|]. split; vm_compute; reflexivity. Qed.
