(* C38-C40, C48, C61-C70: permission-bind rules and instructions. *)
From Coq Require Import String Ascii List PeanoNat NArith ZArith Bool Lia.
From Verif Require Import GoStr GoStrFacts Shifty MMisc MLists MKw MRights MRule MConv MTree MAci
  SLists SAci PLists SKw PKw PRule STree PTree TTree PAci.
Import ListNotations.
Open Scope string_scope.

(* ---- a world for the examples: a grammar that accepts a few texts ---- *)
Definition tScope := raw "targetscope" Eq "subtree".
Definition tFilter := raw "targetfilter" Eq "(cn=a)".
Definition tBad := raw "targetscope" Eq "nosuch".
Definition gA := MkAPBR {| ap_allow := Some true; ap_rights := ["read"; "search"] |} (PStk "and" false [PCond rA]).
Definition gB := MkAPBR {| ap_allow := Some false; ap_rights := ["write"] |} (PStk "and" false [PCond rB]).
Definition gBad := MkAPBR {| ap_allow := Some true; ap_rights := ["read"] |} (PStk "and" false [PCond rBad]).
Definition W0 : world := MkWorld en_ref false "" "" true false
  (fun s => if String.eqb s "bad" then Some rBad else Some rA)
  (fun s => if String.eqb s "bad" then Some tBad else Some tScope)
  (fun s => Some (s, if String.eqb s "twice" then [tScope; tScope] else if String.eqb s "bad" then [tFilter; tBad] else [tFilter; tScope]))
  (fun s => if String.eqb s "A" then Some gA else if String.eqb s "B" then Some gB else if String.eqb s "bad" then Some gBad else None)
  (fun s => Some (if String.eqb s "bad" then [Some gA; Some gBad] else [Some gA; None; Some gB; Some gA]))
  (fun s => if String.eqb s "none" then None
            else Some (MkAI "lbl" (if String.eqb s "badT" then [tBad] else [tFilter; tScope; tFilter])
                                  (if String.eqb s "badP" then [Some gBad] else [Some gA; Some gB]))).
Definition theA : pbr := match parsePBR W0 "A" with Gives r => r | _ => None end.
Definition theB : pbr := match parsePBR W0 "B" with Gives r => r | _ => None end.

(* ---- C38 ---- *)
Theorem C38_valid_distinct : forall W init h l, pbrs_run W (PBRs W init) h = Some l ->
  (forall r, In r l -> pbr_valid r = true) /\
  (forall i j x y, nth_error l i = Some x -> nth_error l j = Some y -> (i < j)%nat ->
     e_eqf (w_env W) (pbr_string W x) (pbr_string W y) = false).
Proof.
  intros W init h l H. destruct (pl_run W h _ _ (pl_ctor W init) H) as [V D]. split; [exact V|]. exact (fop_pairs _ _ D).
Qed.
Lemma nodup_pairs {A B} (f : A -> B) (R : A -> A -> bool) l : (forall x y, f x = f y -> R x y = true) -> distinct_by R l -> NoDup (map f l).
Proof.
  intros H. unfold distinct_by. induction 1 as [|a l F D IH]; cbn [map]; constructor; [|exact IH].
  intros I. apply in_map_iff in I as (x & E & Hx). rewrite Forall_forall in F. specialize (F x Hx). rewrite H in F; [discriminate|easy].
Qed.
Theorem C38_no_equal_texts : forall W init h l, (forall s, e_eqf (w_env W) s s = true) ->
  pbrs_run W (PBRs W init) h = Some l -> NoDup (map (pbr_string W) l).
Proof.
  intros W init h l R H. destruct (pl_run W h _ _ (pl_ctor W init) H) as [_ D]. apply (nodup_pairs _ (same_pbr W)); [|exact D].
  intros x y E. unfold same_pbr. now rewrite E.
Qed.
Lemma occurs_join sep x l : In x l -> occurs x (join sep l).
Proof.
  induction l as [|y l IH]; [easy|]. intros [<-|H].
  - exists "". destruct l as [|z l]; [exists ""; cbn; now rewrite app_nil_r'|]. exists (sep ++ join sep (z :: l)). reflexivity.
  - destruct (IH H) as (a & b & E). destruct l as [|z l]; [destruct H|]. exists (y ++ sep ++ a), b. 
    change (join sep (y :: z :: l)) with (y ++ sep ++ join sep (z :: l)). rewrite E, !app_assoc'. reflexivity.
Qed.
(* the text: each rule's text, ended by a semicolon, separated by blanks *)
Theorem C38_text : forall W init h l, pbrs_run W (PBRs W init) h = Some l ->
  (forall r, In r l -> exists p b, r = Some (MkPB p (Some b)) /\ perm_valid p = true /\
     occurs (perm_string (e_shifty (w_env W)) p ++ " " ++ bctx_string W b ++ ";") (pbrs_string W l)) /\
  pbrs_string W l = join " " (map (pbr_string W) l).
Proof.
  intros W init h l H. destruct (pl_run W h _ _ (pl_ctor W init) H) as [V _]. split; [|reflexivity].
  intros r Hr. specialize (V r Hr) as V'. apply pbr_valid_iff in V' as (d & v & b & E). exists (PSome d v), b. split; [exact E|]. split; [reflexivity|].
  apply (in_map (pbr_string W)) in Hr. apply (occurs_join " ") in Hr. now rewrite E in Hr.
Qed.
(* one Push: which rules are taken *)
Theorem C38_push : forall W l r,
  (pbr_valid r = true /\ (forall y, In y l -> e_eqf (w_env W) (pbr_string W y) (pbr_string W r) = false) ->
     pbrs_push W l [PLRule r] = Some (l ++ [r])%list) /\
  (pbr_valid r = false \/ (exists y, In y l /\ e_eqf (w_env W) (pbr_string W y) (pbr_string W r) = true) ->
     pbrs_push W l [PLRule r] = Some l).
Proof.
  intros W l r. cbn [pbrs_push]. rewrite pl_push1. split.
  - intros [V N]. rewrite V. apply existsb_none in N. unfold same_pbr. now rewrite N.
  - intros [V|(y & Hy & E)]; [now rewrite V|]. assert (X : existsb (fun y => same_pbr W y r) l = true) by (apply existsb_exists; eauto).
    rewrite X. now rewrite andb_false_r.
Qed.
(* Push of a text is Push of what it parses to *)
Theorem C38_push_text : forall W l s, pbrs_push W l [PLStr s] =
  match parsePBR W s with Panics => None | Fails => Some l | Gives r => pbrs_push W l [PLRule r] end.
Proof. intros W l s. cbn [pbrs_push]. now destruct (parsePBR W s). Qed.
Print Assumptions C38_valid_distinct.
Print Assumptions C38_no_equal_texts.
Print Assumptions C38_text.
Print Assumptions C38_push.
Print Assumptions C38_push_text.
Example C38_witness :
  pbrs_run W0 (PBRs W0 [PLRule theA; PLRule None; PLRule theA]) [PLPush [PLStr "B"; PLRule theA; PLStr "bad"; PLRule theB]; PLPush [PLRule theA]]
    = Some [theA; theB] /\
  pbrs_string W0 [theA; theB] = "allow(read,search) userdn = " ++ quote "ldap:///anyone" ++ "; deny(write) ssf >= " ++ quote "128" ++ ";" /\
  (forall s, e_eqf (w_env W0) s s = true).
Proof. split; [reflexivity|]. split; [reflexivity|]. intros s. apply String.eqb_refl. Qed.

(* ---- C39 ---- *)
(* the label is the first non-empty text given to ACI or Set; Push and Pop on the
   lists of the instruction leave it alone *)
Theorem C39_label : forall W xs h i, forallb no_parse h = true -> ins_run W (ACI W xs) h = Some i ->
  exists a, i = Some a /\ i_label a = first_nonempty (flat_map labels_of xs ++ flat_map set_labels h).
Proof.
  intros W xs h i N H. unfold ACI in H. destruct (label_run W h _ _ N H) as (b & -> & E). exists b. split; [reflexivity|].
  rewrite E, (set_labels_exact W xs instr_new), first_nonempty_app. reflexivity.
Qed.
Theorem C39_never_changes : forall W a h i, i_label a <> "" -> forallb no_parse h = true ->
  ins_run W (Some a) h = Some i -> exists b, i = Some b /\ i_label b = i_label a.
Proof.
  intros W a h i L N H. destruct (label_run W h _ _ N H) as (b & -> & E). exists b. split; [reflexivity|].
  rewrite E. cbn [first_nonempty]. now destruct (String.eqb_spec (i_label a) "").
Qed.
(* Set hands every target rule to the list of target rules and every
   permission-bind rule to the other list, in order, as Push would *)
Theorem C39_routing : forall W a xs, exists b, ins_set W (Some a) xs = Some b /\
  i_trs b = fold_left (trs_step (w_stop W)) (map (fun r => TRPush [TRule r]) (flat_map targets_of xs)) (i_trs a) /\
  pbrs_run W (i_pbrs a) (map (fun r => PLPush [PLRule r]) (flat_map pbrs_of xs)) = Some (i_pbrs b).
Proof.
  intros W a xs. eexists. split; [reflexivity|]. rewrite set_trs_exact, set_pbrs_exact. split.
  - generalize (i_trs a). induction (flat_map targets_of xs) as [|r l IH]; intros t; [reflexivity|]. cbn [fold_left map]. rewrite IH.
    cbn [trs_step]. unfold trs_push. now rewrite push_many_one.
  - unfold push_all. generalize (i_pbrs a). induction (flat_map pbrs_of xs) as [|r l IH]; intros t; [reflexivity|].
    cbn [fold_left map pbrs_run pbrs_step pbrs_push]. apply IH.
Qed.
Print Assumptions C39_label.
Print Assumptions C39_never_changes.
Print Assumptions C39_routing.
Example C39_witness :
  exists a, ins_run W0 (ACI W0 [IStr ""; ITR tScope; IStr "one"; IPBR theA]) [ICSet [IStr "two"; IPBRs [theA; theB]; IOther]; ICTRs TRPop; ICPBRs (PLPush [PLStr "A"])]
    = Some (Some a) /\ i_label a = "one" /\ i_trs a = [] /\ i_pbrs a = [theA; theB].
Proof. eexists. split; [reflexivity|]. auto. Qed.

(* ---- C40 ---- *)
Theorem C40_valid : forall W init l0 h l, ACIs W init = Some l0 -> inss_run W l0 h = Some l ->
  (forall i, In i l -> ins_valid i = true) /\
  (forall i j x y, nth_error l i = Some x -> nth_error l j = Some y -> (i < j)%nat ->
     e_eqf (w_env W) (ins_string W x) (condenseWHSP (ins_string W y)) = false).
Proof.
  intros W init l0 h l I H. assert (N : il_inv W []) by (split; [easy|constructor]).
  destruct (il_run W h _ _ (il_push W init _ _ N I) H) as [V D]. split; [exact V|exact (fop_pairs _ _ D)].
Qed.
(* which instructions a Push takes: the new text is condensed, those of the members
   are not *)
Theorem C40_exact : forall W l i,
  (ins_valid i = true /\ (forall y, In y l -> e_eqf (w_env W) (ins_string W y) (condenseWHSP (ins_string W i)) = false) ->
     inss_push W l [JIns i] = Some (l ++ [i])%list) /\
  (ins_valid i = false \/ (exists y, In y l /\ e_eqf (w_env W) (ins_string W y) (condenseWHSP (ins_string W i)) = true) ->
     inss_push W l [JIns i] = Some l).
Proof.
  intros W l i. cbn [inss_push]. unfold push1, inss_policy, inss_contains. split.
  - intros [V N]. apply existsb_none in N. now rewrite N, V.
  - intros [V|(y & Hy & E)]; [rewrite V; now destruct (existsb _ l)|].
    assert (X : existsb (fun y => e_eqf (w_env W) (ins_string W y) (condenseWHSP (ins_string W i))) l = true) by (apply existsb_exists; eauto).
    now rewrite X.
Qed.
(* Missing from C40: instructions whose text has two blanks in a row, a blank that is
   not U+0020, or a blank at an end; for these it is false (C40_refuted). *)
Theorem C40_partial : forall W init l0 h l, (forall s, e_eqf (w_env W) s s = true) ->
  ACIs W init = Some l0 -> inss_run W l0 h = Some l ->
  (forall i, In i l -> condenseWHSP (ins_string W i) = ins_string W i) ->
  NoDup (map (ins_string W) l).
Proof.
  intros W init l0 h l R I H C. assert (N : il_inv W []) by (split; [easy|constructor]).
  destruct (il_run W h _ _ (il_push W init _ _ N I) H) as [V D]. unfold distinct_by in D. clear - D C R.
  induction D as [|a l F D IH]; cbn [map]; constructor.
  - intros X. apply in_map_iff in X as (x & E & Hx). rewrite Forall_forall in F. specialize (F x Hx). cbn beta in F.
    rewrite (C x) in F by (now right). rewrite E in F. now rewrite R in F.
  - apply IH. intros i Hi. apply C. now right.
Qed.
Theorem C40_refuted : ~ (forall W init l0 h l, (forall s, e_eqf (w_env W) s s = true) ->
  ACIs W init = Some l0 -> inss_run W l0 h = Some l -> NoDup (map (ins_string W) l)).
Proof.
  intros H. specialize (H W0 [JIns (ACI W0 [IStr "a  b"])] [ACI W0 [IStr "a  b"]] [JPush [JIns (ACI W0 [IStr "a  b"])]]
    [ACI W0 [IStr "a  b"]; ACI W0 [IStr "a  b"]] (fun s => String.eqb_refl _) eq_refl eq_refl).
  cbn [map] in H. inversion H as [|? ? X _]; subst. apply X. now left.
Qed.
Print Assumptions C40_valid.
Print Assumptions C40_exact.
Print Assumptions C40_partial.
Print Assumptions C40_refuted.
Example C40_witness :
  let x := ACI W0 [IStr "a b"; IPBR theA] in let y := ACI W0 [IStr "c"; IPBR theA; ITR tScope] in
  exists l0, ACIs W0 [JIns x; JIns None; JStr "none"] = Some l0 /\ inss_run W0 l0 [JPush [JIns y; JIns x]; JPush [JIns y]] = Some [x; y] /\
  (forall i, In i [x; y] -> condenseWHSP (ins_string W0 i) = ins_string W0 i).
Proof.
  intros x y. exists [x]. split; [reflexivity|]. split; [reflexivity|]. intros i [<-|[<-|[]]]; reflexivity.
Qed.

(* ---- C48 ---- *)
(* Parse fails exactly when the grammar refuses the text (condensed first); whether
   a component is acceptable plays no part *)
Theorem C48_exact : forall W raw,
  (parseInstruction W raw = Fails <-> w_ins W (condenseWHSP raw) = None) /\
  (forall i, parseInstruction W raw = Gives i <->
     exists x t p okt okp, w_ins W (condenseWHSP raw) = Some x /\
       converted (w_env W) (first_rules [] (ai_trs x)) t okt /\
       built W (ai_pbrs x) p okp /\
       i = Some (MkIns (ai_label x) t (firsts_by (same_pbr W) p []))).
Proof.
  intros W raw. split; [|apply parse_ins_exact]. unfold parseInstruction. destruct (w_ins W (condenseWHSP raw)) as [a|]; [|easy].
  split; [|discriminate]. destruct (processTRs W (ai_trs a)) as [[? ?]|]; [destruct (processPBRs W [] (ai_pbrs a)) as [[? ?]|]|]; discriminate.
Qed.
(* so it is false of the code: for a target rule, and for a permission-bind rule *)
Theorem C48_refuted :
  ~ (forall W raw x r, w_ins W (condenseWHSP raw) = Some x -> In r (ai_trs x) -> tr_assert (w_env W) r = RErr ->
       parseInstruction W raw = Fails) /\
  ~ (forall W raw x a, w_ins W (condenseWHSP raw) = Some x -> In (Some a) (ai_pbrs x) -> processPBR W a = Fails ->
       parseInstruction W raw = Fails).
Proof.
  split; intros H.
  - specialize (H W0 "badT" _ tBad eq_refl (or_introl eq_refl) eq_refl). vm_compute in H. discriminate H.
  - specialize (H W0 "badP" _ gBad eq_refl (or_introl eq_refl) eq_refl). vm_compute in H. discriminate H.
Qed.
Definition got (s : string) : instr := match parseInstruction W0 s with Gives (Some a) => a | _ => instr_new end.
(* what the caller gets: an instruction without any permission-bind rule, and one
   with a target rule whose value was not converted *)
Theorem C48_silent :
  (exists a, parseInstruction W0 "badP" = Gives (Some a) /\ i_pbrs a = []) /\
  (exists a, parseInstruction W0 "badT" = Gives (Some a) /\ i_trs a = [tBad]).
Proof. split; [exists (got "badP")|exists (got "badT")]; split; vm_compute; reflexivity. Qed.
Print Assumptions C48_exact.
Print Assumptions C48_refuted.
Print Assumptions C48_silent.
Example C48_witness : parseInstruction W0 "none" = Fails /\ exists a, parseInstruction W0 " x  y " = Gives (Some a) /\ i_pbrs a = [theA; theB].
Proof. split; [reflexivity|]. exists (got " x  y "). split; vm_compute; reflexivity. Qed.

(* ---- C61, C62 ---- *)
Theorem C61_exact : forall W raw r, w_tr W raw = Some r ->
  parseTargetRule W raw <> Fails /\
  (tr_assert (w_env W) r = RErr -> parseTargetRule W raw = Gives r) /\
  (forall r', tr_assert (w_env W) r = ROk r' -> parseTargetRule W raw = Gives r').
Proof.
  intros W raw r H. unfold parseTargetRule. rewrite H. split; [now destruct (tr_assert _ _)|]. split; [intros ->|intros r' ->]; reflexivity.
Qed.
Theorem C61_refuted : ~ (forall W raw r, w_tr W raw = Some r -> tr_assert (w_env W) r = RErr -> parseTargetRule W raw = Fails).
Proof. intros H. specialize (H W0 "bad" tBad eq_refl eq_refl). vm_compute in H. discriminate H. Qed.
Theorem C62_exact : forall W raw r, w_br W raw = Some r -> parseBindRule W raw = Gives r.
Proof. intros W raw r H. unfold parseBindRule. now rewrite H. Qed.
Theorem C62_refuted : ~ (forall W raw r, w_br W raw = Some r -> br_assert (w_env W) r = RErr -> parseBindRule W raw = Fails).
Proof. intros H. specialize (H W0 "bad" rBad eq_refl eq_refl). vm_compute in H. discriminate H. Qed.
Print Assumptions C61_exact.
Print Assumptions C61_refuted.
Print Assumptions C62_exact.
Print Assumptions C62_refuted.
Example C61_witness : parseTargetRule W0 "bad" = Gives tBad /\
  exists r, parseTargetRule W0 "good" = Gives r /\ tr_string r = "( targetscope = " ++ quote "subtree" ++ " )".
Proof. split; [reflexivity|]. eexists. split; reflexivity. Qed.
Example C62_witness : parseBindRule W0 "bad" = Gives rBad /\ parseBindRule W0 "good" = Gives rA.
Proof. split; reflexivity. Qed.

(* ---- C63 ---- *)
Theorem C63_exact : forall W raw l, parseTargetRules W raw = Gives l <->
  exists text rs, w_trs W (condenseWHSP raw) = Some (text, rs) /\ text <> "" /\
    converted (w_env W) (first_rules [] rs) l true.
Proof.
  intros W raw l. unfold parseTargetRules. destruct (w_trs W (condenseWHSP raw)) as [[text rs]|].
  - destruct (String.eqb_spec text "") as [E|E].
    + split; [discriminate|]. intros (t & s & [= <- <-] & N & _). contradiction.
    + destruct (processTRs W rs) as [[m ok]|] eqn:P.
      * assert (Q := P). apply processTRs_exact in P. split.
        -- destruct ok; [|discriminate]. intros [= <-]. exists text, rs. auto.
        -- intros (t & s & [= <- <-] & _ & C). apply processTRs_exact in C. rewrite Q in C. now injection C as -> ->.
      * split; [discriminate|]. intros (t & s & [= <- <-] & _ & C). apply processTRs_exact in C. congruence.
  - split; [discriminate|]. intros (t & s & H & _). discriminate H.
Qed.
Lemma converted_all en l l' : converted en l l' true <-> Forall2 (fun r r' => tr_assert en r = ROk r') l l'.
Proof.
  split.
  - intros H. remember true as ok eqn:E. revert E. induction H; intros E; [constructor|discriminate|]. constructor; auto.
  - induction 1; constructor; auto.
Qed.
(* Missing from C63: texts with two rules of one keyword or with an unknown keyword;
   for these it is false (C63_refuted). *)
Theorem C63_partial : forall W raw text rs l, w_trs W (condenseWHSP raw) = Some (text, rs) ->
  (forall r, In r rs -> tr_keyword r <> 0%N) -> NoDup (map tr_keyword rs) ->
  parseTargetRules W raw = Gives l ->
  Forall2 (fun r r' => tr_assert (w_env W) r = ROk r') rs l /\ map tr_keyword l = map tr_keyword rs.
Proof.
  intros W raw text rs l E K D H. apply C63_exact in H as (t & s & E' & _ & C). rewrite E in E'. injection E' as <- <-.
  assert (I : trs_inv rs).
  { split; [|exact D]. intros r Hr. destruct (tr_keyword_cases r) as [Z|X]; [|exact X]. now apply K in Hr. }
  rewrite (first_rules_id _ I) in C. split; [now apply converted_all|now apply converted_keywords in C].
Qed.
Theorem C63_refuted : ~ (forall W raw text rs l, w_trs W (condenseWHSP raw) = Some (text, rs) ->
  parseTargetRules W raw = Gives l -> List.length l = List.length rs).
Proof. intros H. specialize (H W0 "twice" _ _ _ eq_refl eq_refl). vm_compute in H. discriminate H. Qed.
Print Assumptions C63_exact.
Print Assumptions C63_partial.
Print Assumptions C63_refuted.
Example C63_witness : parseTargetRules W0 "bad" = Fails /\
  exists l, parseTargetRules W0 " x " = Gives l /\ trs_string false l = "( targetfilter = " ++ quote "(cn=a)" ++ " )( targetscope = " ++ quote "subtree" ++ " )" /\
  NoDup (map tr_keyword [tFilter; tScope]) /\ (forall r, In r [tFilter; tScope] -> tr_keyword r <> 0%N).
Proof.
  split; [vm_compute; reflexivity|]. exists (match parseTargetRules W0 " x " with Gives l => l | _ => [] end). split; [vm_compute; reflexivity|]. split; [vm_compute; reflexivity|]. split.
  - constructor; [intros [X|[]]; discriminate X|]. constructor; [easy|constructor].
  - intros r [<-|[<-|[]]]; discriminate.
Qed.

(* ---- C64 ---- *)
Theorem C64_exact : forall W raw,
  (parsePBRs W raw = Fails <-> w_pbrs W raw = None \/ exists xs rs, w_pbrs W raw = Some xs /\ built W xs rs false) /\
  (forall l, parsePBRs W raw = Gives l <->
     exists xs rs, w_pbrs W raw = Some xs /\ built W xs rs true /\ l = firsts_by (same_pbr W) rs []).
Proof.
  intros W raw. unfold parsePBRs. destruct (w_pbrs W raw) as [xs|]; [|split].
  2:{ split; [now left|easy]. }
  2:{ intros l. split; [discriminate|]. intros (xs & rs & H & _). discriminate H. }
  assert (F : forall rs ok, built W xs rs ok -> processPBRs W [] xs = Some (firsts_by (same_pbr W) rs [], ok)).
  { intros rs ok B. apply processPBRs_built. exists rs. split; [exact B|]. rewrite push_all_exact. cbn [app].
    now rewrite (filter_all _ _ (built_valid _ _ _ _ B)). }
  destruct (processPBRs W [] xs) as [[l ok]|] eqn:P.
  - apply processPBRs_built in P as (rs & B & E). assert (X := F _ _ B). injection X as X.
    split; [|intros m]; (split; [destruct ok; try discriminate|]).
    + intros _. right. eauto.
    + intros [H|(ys & rs' & [= <-] & B')]; [discriminate H|]. apply F in B'. now injection B' as _ ->.
    + intros [= <-]. exists xs, rs. auto.
    + intros (ys & rs' & [= <-] & B' & ->). apply F in B'. injection B' as <- ->. reflexivity.
  - split; [|intros m]; (split; [discriminate|]).
    + intros [H|(ys & rs' & [= <-] & B')]; [discriminate H|]. apply F in B'. discriminate B'.
    + intros (ys & rs' & [= <-] & B' & _). apply F in B'. discriminate B'.
Qed.
Print Assumptions C64_exact.
Example C64_witness : parsePBRs W0 "bad" = Fails /\ parsePBRs W0 "x" = Gives [theA; theB] /\
  built W0 [Some gA; None; Some gB; Some gA] [theA; theB; theA] true.
Proof.
  split; [reflexivity|]. split; [reflexivity|]. apply bu_ok; [reflexivity|]. apply bu_skip. apply bu_ok; [reflexivity|]. apply bu_ok; [reflexivity|]. apply bu_nil.
Qed.

(* ---- C65 ---- *)
Definition sound_pbr (r : pbr) : Prop := exists p b, r = Some (MkPB p (Some b)) /\ perm_valid p = true /\ bctx_valid b = true.
(* Missing from C65: PBR(p, b), which takes any non-nil b; there it is false
   (C65_refuted).  For parsed texts: parsers that hand over something other than ANDs,
   ORs and NOTs (C65_parse_refuted). *)
(* the parser hands over ANDs, ORs and NOTs only *)
Definition usual_parser (W : world) : Prop := forall s a, w_pbr W s = Some a ->
  match ap_b a with PStk k _ _ => known_kind k = true | _ => False end.
Lemma parsed_sound W s x : usual_parser W -> parsePBR W s = Gives (Some x) -> exists d v t, x = MkPB (PSome d v) (Some (BCStack (Some t))) /\ is_stk t.
Proof.
  unfold parsePBR. intros U. destruct (w_pbr W s) as [a|] eqn:E; [|discriminate]. specialize (U s a E). intros H.
  apply processPBR_gives in H as (d & v & [t|] & [= ->] & S); [eauto|]. destruct S as [_ S]. destruct (ap_b a); [destruct U| |destruct U]. congruence.
Qed.
Definition parts_ok (r : pbrec) : Prop := forall b, pb_b r = Some b -> bctx_valid b = true.
Lemma set_parts W xs : usual_parser W -> forall r r', parts_ok r -> pbrec_set W r xs = Some r' -> parts_ok r'.
Proof.
  intros U. induction xs as [|x xs IH]; intros r r' H E; cbn [pbrec_set] in E; [now injection E as <-|].
  destruct x as [s|p|b|].
  - destruct (parsePBR W s) as [| |[x|]] eqn:P; [discriminate|now injection E as <-| |now injection E as <-].
    apply (IH x); [|exact E]. apply (parsed_sound _ _ _ U) in P as (d & v & t & -> & S). intros b [= <-]. destruct t; [destruct S|reflexivity].
  - destruct (perm_valid p); [|now injection E as <-]. now apply (IH _ _) in E.
  - destruct (bctx_valid b) eqn:V; [|now injection E as <-]. apply (IH _ _) in E; [exact E|]. intros c [= <-]. exact V.
  - now apply (IH r).
Qed.
Lemma sets_parts W h : usual_parser W -> forall r r', (forall x, r = Some x -> parts_ok x) -> pbr_sets W r h = Some r' -> forall x, r' = Some x -> parts_ok x.
Proof.
  intros U. induction h as [|xs h IH]; intros r r' H E; cbn [pbr_sets] in E; [now injection E as <-|].
  unfold pbr_set in E. set (r0 := if pbr_isZero r then _ else _) in E. destruct (pbrec_set W r0 xs) as [r1|] eqn:S; [|discriminate].
  apply (IH (Some r1)); [|exact E]. intros x [= <-]. apply (set_parts W xs U r0); [|exact S]. unfold r0.
  destruct (pbr_isZero r); [intros b [=]|]. destruct r as [y|]; [now apply H|intros b [=]].
Qed.
Theorem C65_partial : forall W h r, usual_parser W -> pbr_sets W None h = Some r -> pbr_valid r = true -> sound_pbr r.
Proof.
  intros W h r U H V. assert (P := sets_parts W h U None r ltac:(intros x [=]) H). apply pbr_valid_iff in V as (d & v & b & ->).
  exists (PSome d v), b. split; [reflexivity|]. split; [reflexivity|]. exact (P _ eq_refl b eq_refl).
Qed.
Theorem C65_parse : forall W s r, usual_parser W -> parsePBR W s = Gives r -> sound_pbr r.
Proof.
  intros W s [x|] U H.
  - apply (parsed_sound _ _ _ U) in H as (d & v & t & -> & S). do 2 eexists. split; [reflexivity|]. split; [reflexivity|]. destruct t; [destruct S|reflexivity].
  - now apply parsePBR_valid in H.
Qed.
Theorem C65_PBR : forall p b, pbr_valid (PBR p b) = true <-> perm_valid p = true /\ b <> None.
Proof.
  intros p b. unfold PBR. destruct p as [|d v], b as [b|]; cbn; split; try easy; try (intros [? ?]; congruence).
Qed.
Theorem C65_refuted : ~ (forall p b, pbr_valid (PBR p b) = true -> sound_pbr (PBR p b)).
Proof.
  intros H. specialize (H (PSome true 1%N) (Some (BCRule None)) eq_refl) as (p & b & [= <- <-] & _ & X). discriminate X.
Qed.
(* [usual_parser] is needed: a stack of another kind becomes an uninitialised
   BindRules, if go-stackage gives such a stack a text *)
Theorem C65_parse_refuted : ~ (forall W s r, parsePBR W s = Gives r -> sound_pbr r).
Proof.
  intros H. set (g := MkAPBR {| ap_allow := Some true; ap_rights := ["read"] |} (PStk "list" false [PCond rA])).
  specialize (H (MkWorld en_ref false "" "<invalid_stack>" true false (fun _ => None) (fun _ => None) (fun _ => None) (fun _ => Some g) (fun _ => None) (fun _ => None)) ""
    (Some (MkPB (PSome true 1%N) (Some (BCStack None)))) ltac:(vm_compute; reflexivity)) as (p & b & [= <- <-] & _ & X). discriminate X.
Qed.
Print Assumptions C65_partial.
Print Assumptions C65_parse.
Print Assumptions C65_PBR.
Print Assumptions C65_parse_refuted.
Print Assumptions C65_refuted.
Example C65_parser_witness : usual_parser W0.
Proof.
  intros s a. cbn. destruct (String.eqb s "A"); [now intros [= <-]|]. destruct (String.eqb s "B"); [now intros [= <-]|].
  destruct (String.eqb s "bad"); [now intros [= <-]|discriminate].
Qed.
Example C65_witness : exists r, pbr_sets W0 None [[PAPerm (PSome false 2%N); PABind (BCRule None); PAStr "A"]; [PABind (BCRule (Some cB))]] = Some r /\
  pbr_valid r = true /\ pbr_string W0 r = "deny(write) ssf >= " ++ quote "128" ++ ";".
Proof. eexists. split; [vm_compute; reflexivity|]. split; vm_compute; reflexivity. Qed.

(* ---- C66, C67 ---- *)
Theorem C66_instructions : forall W l xs, inss_run W l [JPush xs] = inss_run W l (map (fun x => JPush [x]) xs).
Proof.
  intros W l xs. revert l. induction xs as [|x xs IH]; intros l; [reflexivity|]. cbn [map]. cbn [inss_run] in *. destruct x as [s|i|]; cbn [inss_push].
  - destruct (parseInstruction W s) as [| |i]; [reflexivity|apply IH|apply IH].
  - apply IH.
  - apply IH.
Qed.
Theorem C66_refuted : ~ (forall W l xs, pbrs_run W l [PLPush xs] = pbrs_run W l (map (fun x => PLPush [x]) xs)).
Proof. intros H. specialize (H W0 [] [PLStr "bad"; PLRule theA]). vm_compute in H. discriminate H. Qed.
(* Missing from C66: argument lists with a text that does not parse, where the rest
   of the arguments is dropped (C66_exact). *)
Theorem C66_partial : forall W l xs, (forall x, In x xs -> usable W x) ->
  pbrs_run W l [PLPush xs] = pbrs_run W l (map (fun x => PLPush [x]) xs).
Proof.
  intros W l xs U. revert l. induction xs as [|x xs IH]; intros l; [reflexivity|].
  assert (IH' := IH (fun y Hy => U y (or_intror Hy))). cbn [map]. cbn [pbrs_run pbrs_step] in *.
  destruct x as [s|r|]; cbn [pbrs_push]; [|apply IH'|apply IH'].
  specialize (U (PLStr s) (or_introl eq_refl)). cbn [usable] in U. destruct (parsePBR W s) as [| |r]; [reflexivity|contradiction|apply IH'].
Qed.
Theorem C66_exact : forall W l xs s ys, (forall x, In x xs -> usable W x) -> parsePBR W s = Fails ->
  pbrs_push W l (xs ++ PLStr s :: ys) = pbrs_push W l xs.
Proof.
  intros W l xs s ys U P. revert l. induction xs as [|x xs IH]; intros l.
  - cbn [app pbrs_push]. now rewrite P.
  - assert (IH' := IH (fun y Hy => U y (or_intror Hy))). cbn [app pbrs_push]. destruct x as [t|r|]; [|apply IH'|apply IH'].
    destruct (parsePBR W t); [reflexivity|reflexivity|apply IH'].
Qed.
Theorem C67_refuted : ~ (forall W xs, pbrs_push W [] xs = Some (PBRs W xs)).
Proof. intros H. specialize (H W0 [PLStr "A"]). vm_compute in H. discriminate H. Qed.
(* Missing from C67: texts (never parsed by the constructor), and what go-stackage
   does with the values after a refused one. *)
Theorem C67_partial : forall W xs, w_stop W = false -> (forall s, ~ In (PLStr s) xs) -> pbrs_push W [] xs = Some (PBRs W xs).
Proof.
  intros W xs S. unfold PBRs. rewrite S. generalize (@nil pbr). induction xs as [|x xs IH]; intros l N; [reflexivity|].
  assert (N' : forall s, ~ In (PLStr s) xs) by (intros s H; apply (N s); now right).
  cbn [pbrs_push push_many andb]. destruct x as [s|r|]; [exfalso; apply (N s); now left|now apply IH|now apply IH].
Qed.
(* whatever go-stackage does there, valid rules with distinct texts are all kept *)
Theorem C67_distinct : forall W rs, (forall r, In r rs -> pbr_valid r = true) -> distinct_by (same_pbr W) rs ->
  PBRs W (map PLRule rs) = rs /\ pbrs_push W [] (map PLRule rs) = Some rs.
Proof.
  intros W rs V D. assert (G : forall rs l stop, (forall r, In r rs -> pbr_valid r = true) -> distinct_by (same_pbr W) (l ++ rs)%list ->
    push_many stop (pbrs_push1 W) l (map PLRule rs) = (l ++ rs)%list /\ pbrs_push W l (map PLRule rs) = Some (l ++ rs)%list).
  { clear. induction rs as [|r rs IH]; intros l stop V D; [cbn; now rewrite app_nil_r|]. cbn [map push_many pbrs_push].
    assert (E : existsb (fun y => same_pbr W y r) l = false).
    { assert (F := firsts_distinct (same_pbr W) (r :: rs) l D). cbn [firsts_by] in F. destruct (existsb _ l); [|reflexivity].
      exfalso. clear - F. assert (L : forall rs seen, (List.length (firsts_by (same_pbr W) rs seen) <= List.length rs)%nat).
      { clear. induction rs as [|x rs IH]; intros seen; cbn [firsts_by List.length]; [lia|]. destruct (existsb _ seen); [specialize (IH seen); lia|].
        cbn [List.length]. specialize (IH (seen ++ [x])%list). lia. }
      specialize (L rs l). rewrite F in L. cbn [List.length] in L. lia. }
    rewrite pl_push1, (V r (or_introl eq_refl)), E. cbn [andb negb].
    replace (List.length (l ++ [r]) =? List.length l)%nat with false by (rewrite app_length; cbn [List.length]; symmetry; apply Nat.eqb_neq; lia).
    rewrite andb_false_r. replace (l ++ r :: rs)%list with ((l ++ [r]) ++ rs)%list in * by (now rewrite <- app_assoc).
    apply IH; [intros x Hx; apply V; now right|exact D]. }
  split; apply (G rs [] (w_stop W) V D).
Qed.
Print Assumptions C66_instructions.
Print Assumptions C66_refuted.
Print Assumptions C66_partial.
Print Assumptions C66_exact.
Print Assumptions C67_refuted.
Print Assumptions C67_partial.
Print Assumptions C67_distinct.
Example C66_witness :
  (forall x, In x [PLStr "A"; PLRule theB] -> usable W0 x) /\ pbrs_run W0 [] [PLPush [PLStr "A"; PLRule theB]] = Some [theA; theB] /\
  pbrs_push W0 [] ([PLStr "A"] ++ PLStr "bad" :: [PLRule theB])%list = Some [theA] /\
  inss_run W0 [] [JPush [JStr "none"; JStr "x"; JStr "x"]] <> Some [].
Proof. split; [intros x [<-|[<-|[]]]; [discriminate|exact I]|]. split; [vm_compute; reflexivity|]. split; [vm_compute; reflexivity|]. vm_compute. discriminate. Qed.
Example C67_witness : PBRs W0 [PLRule theA; PLOther; PLRule theA; PLRule theB] = [theA; theB] /\ w_stop W0 = false /\
  distinct_by (same_pbr W0) [theA; theB].
Proof. split; [reflexivity|]. split; [reflexivity|]. constructor; [constructor; [reflexivity|constructor]|]. constructor; constructor. Qed.

(* ---- C68 ---- *)
Definition injected : string := "a" ++ dq ++ "; allow(read,search) userdn = " ++ dq ++ "ldap:///anyone".
Theorem C68_refuted : ~ (forall W a b, ins_string W (Some a) = ins_string W (Some b) ->
  i_label a = i_label b /\ List.length (i_pbrs a) = List.length (i_pbrs b)).
Proof.
  intros H. destruct (H W0 (MkIns "a" [] [theA; theB]) (MkIns injected [] [theB]) eq_refl) as [_ X]. discriminate X.
Qed.
Lemma quote_split a : forall b x y, no_quote a = true -> no_quote b = true -> a ++ dq ++ x = b ++ dq ++ y -> a = b /\ x = y.
Proof.
  induction a as [|c a IH]; intros [|d b] x y Na Nb E.
  - injection E as E. auto.
  - injection E as E _. subst d. discriminate Nb.
  - injection E as E _. subst c. discriminate Na.
  - change (String c (a ++ dq ++ x) = String d (b ++ dq ++ y)) in E. injection E as -> E.
    cbn [no_quote] in Na, Nb. apply andb_true_iff in Na as [_ Na]. apply andb_true_iff in Nb as [_ Nb].
    destruct (IH b x y Na Nb E) as [-> ->]. auto.
Qed.
Lemma app_cancel_l a : forall x y : string, a ++ x = a ++ y -> x = y.
Proof. induction a as [|c a IH]; intros x y E; [exact E|]. injection E as E. now apply IH. Qed.
Lemma app_cancel_r x : forall y c : string, x ++ c = y ++ c -> x = y.
Proof.
  intros y c E. assert (L : String.length x = String.length y).
  { assert (E' := f_equal String.length E). rewrite !length_app in E'. lia. }
  revert y L E. induction x as [|d x IH]; intros [|e y] L E; cbn in L; try discriminate; [reflexivity|].
  injection E as -> E. f_equal. apply IH; [congruence|exact E].
Qed.
(* Missing from C68: labels with a double quote, for which it is false, and
   instructions with different target rules. *)
Theorem C68_partial : forall W a b, no_quote (i_label a) = true -> no_quote (i_label b) = true ->
  trs_string false (i_trs a) = trs_string false (i_trs b) ->
  ins_string W (Some a) = ins_string W (Some b) ->
  i_label a = i_label b /\ pbrs_string W (i_pbrs a) = pbrs_string W (i_pbrs b).
Proof.
  intros W a b Na Nb T E. cbn [ins_string] in E. rewrite T in E. do 5 apply app_cancel_l in E.
  apply quote_split in E as [L E]; [|exact Na|exact Nb]. split; [exact L|]. apply app_cancel_l in E. now apply app_cancel_r in E.
Qed.
Print Assumptions C68_refuted.
Print Assumptions C68_partial.
Example C68_witness : no_quote "a label" = true /\
  ins_string W0 (ACI W0 [IStr "a label"; IPBR theB]) = "(version 3.0; acl " ++ quote "a label" ++ "; deny(write) ssf >= " ++ quote "128" ++ ";)".
Proof. split; reflexivity. Qed.

(* ---- C69 ---- *)
Fixpoint somes {A} (l : list (option A)) : list A := match l with [] => [] | Some a :: t => a :: somes t | None :: t => somes t end.
Lemma built_all W xs rs : Forall2 (fun a r => processPBR W a = Gives r) (somes xs) rs -> built W xs rs true.
Proof.
  revert rs. induction xs as [|[a|] xs IH]; intros rs H; cbn [somes] in H.
  - inversion H. constructor.
  - inversion H; subst. constructor; auto.
  - constructor. now apply IH.
Qed.
Theorem C69_parsed : forall W raw x t p, w_ins W (condenseWHSP raw) = Some x ->
  Forall2 (fun r r' => tr_assert (w_env W) r = ROk r') (first_rules [] (ai_trs x)) t ->
  Forall2 (fun a r => processPBR W a = Gives r) (somes (ai_pbrs x)) p ->
  parseInstruction W raw = Gives (Some (MkIns (ai_label x) t (firsts_by (same_pbr W) p []))).
Proof.
  intros W raw x t p E T P. apply parse_ins_exact. exists x, t, p, true, true. split; [exact E|]. split; [now apply converted_all|]. split; [now apply built_all|reflexivity].
Qed.
(* nothing is left out when the keywords are known and distinct and so are the texts *)
Theorem C69_nothing_lost : forall W raw x t p, w_ins W (condenseWHSP raw) = Some x ->
  (forall r, In r (ai_trs x) -> tr_keyword r <> 0%N) -> NoDup (map tr_keyword (ai_trs x)) ->
  Forall2 (fun r r' => tr_assert (w_env W) r = ROk r') (ai_trs x) t ->
  Forall2 (fun a r => processPBR W a = Gives r) (somes (ai_pbrs x)) p -> distinct_by (same_pbr W) p ->
  parseInstruction W raw = Gives (Some (MkIns (ai_label x) t p)).
Proof.
  intros W raw x t p E K D T P Q. rewrite (C69_parsed W raw x t p E); [|rewrite first_rules_id; [exact T|]|exact P].
  - now rewrite (firsts_distinct (same_pbr W) p [] Q).
  - split; [|exact D]. intros r Hr. destruct (tr_keyword_cases r) as [Z|X]; [|exact X]. now apply K in Hr.
Qed.
Print Assumptions C69_parsed.
Print Assumptions C69_nothing_lost.
Example C69_witness : exists a, parseInstruction W0 "  x " = Gives (Some a) /\ i_label a = "lbl" /\ map tr_keyword (i_trs a) = map tr_keyword [tFilter; tScope] /\ i_pbrs a = [theA; theB] /\
  ins_string W0 (Some a) = "( targetfilter = " ++ quote "(cn=a)" ++ " )( targetscope = " ++ quote "subtree" ++ " )(version 3.0; acl " ++ quote "lbl" ++ "; " ++ pbrs_string W0 [theA; theB] ++ ")".
Proof. exists (got "  x "). split; [vm_compute; reflexivity|]. split; [vm_compute; reflexivity|]. split; [vm_compute; reflexivity|]. split; vm_compute; reflexivity. Qed.

(* ---- C70 ---- *)
Theorem C70_invariant : forall W i0 h a, i0 = None \/ (exists xs, i0 = ACI W xs) -> ins_run W i0 h = Some (Some a) ->
  NoDup (map tr_keyword (i_trs a)) /\ (forall r, In r (i_trs a) -> tr_keyword r <> 0%N) /\
  (forall r, In r (i_pbrs a) -> pbr_valid r = true) /\
  (forall i j x y, nth_error (i_pbrs a) i = Some x -> nth_error (i_pbrs a) j = Some y -> (i < j)%nat ->
     e_eqf (w_env W) (pbr_string W x) (pbr_string W y) = false).
Proof.
  intros W i0 h a H R. assert (I : ins_inv W i0).
  { destruct H as [->|[xs ->]]; [exact I|]. exact (set_inv W None xs I). }
  apply (run_inv W h _ _ I) in R. destruct R as [[K D] [V Q]]. split; [exact D|]. split.
  - intros r Hr. destruct (K r Hr) as [k E]. rewrite E. now destruct k.
  - split; [exact V|exact (fop_pairs _ _ Q)].
Qed.
Print Assumptions C70_invariant.
Example C70_witness : exists a, ins_run W0 None [ICSet [ITRs [tScope; tFilter; tScope]; IPBRs [theA; theA]]; ICParse "x"; ICTRs (TRPush [TRule tScope]); ICPBRs (PLPush [PLRule theA]); ICParse "none"] = Some (Some a) /\
  List.length (i_trs a) = 2%nat /\ List.length (i_pbrs a) = 2%nat.
Proof. eexists. split; [vm_compute; reflexivity|]. split; vm_compute; reflexivity. Qed.
