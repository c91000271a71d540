(* C110-C112: theorems about the reading methods of bind contexts and about OID. *)
From Coq Require Import String Ascii List PeanoNat NArith ZArith Bool Lia Permutation.
From Verif Require Import GoStr GoStrFacts MMisc MLists MKw MRule MConv MTree MAci MInfo MMeth MInspect SKw STree SInspect PKw TTree.
Import ListNotations.
Open Scope string_scope.

(* ---- C110: the walk ---- *)
(* the text by which a rule is judged *)
Definition text_of (b : bctx) : string := match b with BCRule r => br_string r | BCStack _ => "" end.
Definition is_stack (t : tree) : Prop := match t with Stk _ _ _ _ _ => True | Leaf _ => False end.

Lemma walk_exists : forall t, exists s, walk text_of (bc_member t) s.
Proof.
  fix IH 1. intros [c|w p f d ks].
  - eexists. now apply walk_rule.
  - assert (X : exists ms, Forall2 (walk text_of) (map bc_member ks) ms).
    { induction ks as [|k ks [ms M]]; [exists []; constructor|].
      destruct (IH k) as [s S]. exists (s :: ms). now constructor. }
    destruct X as [ms M]. eexists. apply (walk_stack text_of (bc_member (Stk w p f d ks)) (map bc_member ks) ms); [reflexivity| | |exact M].
    + cbn. now rewrite map_length.
    + intros i _. cbn. rewrite nth_error_map. destruct (nth_error ks i); reflexivity.
Qed.
Lemma pointwise {A} (l l' : list A) : List.length l = List.length l' -> (forall i, (i < List.length l)%nat -> nth_error l i = nth_error l' i) -> l = l'.
Proof.
  revert l'; induction l as [|a l IH]; intros [|b l'] E H; try discriminate; [reflexivity|].
  f_equal.
  - specialize (H 0%nat (Nat.lt_0_succ _)). cbn in H. now injection H.
  - apply IH; [now injection E|]. intros i I. apply (H (S i)). cbn. lia.
Qed.
Lemma walk_members w p f d ks kl ms :
  bc_len (BCStack (Some (Stk w p f d ks))) = List.length kl ->
  (forall i, (i < bc_len (BCStack (Some (Stk w p f d ks))))%nat -> bc_index (BCStack (Some (Stk w p f d ks))) i = nth_error kl i) ->
  Forall2 (walk text_of) kl ms -> Forall2 (walk text_of) (map bc_member ks) ms.
Proof.
  intros L I M. cbn in L, I. assert (E : map bc_member ks = kl).
  { apply pointwise; [now rewrite map_length|]. intros i H. rewrite map_length in H. rewrite <- (I i H), nth_error_map. now destruct (nth_error ks i). }
  now rewrite E.
Qed.
Lemma walk_verdict : forall negated v t s, walk text_of (bc_member t) s ->
  verdict negated v s = meaning negated (fun c => v (bkw_string (matchBKW (c_kw c))) (cond_string c)) t.
Proof.
  intros negated v. fix IH 1. intros [c|w p f d ks] s W; inversion W as [b K|b kl ms K L I M]; subst; try discriminate K.
  - reflexivity.
  - assert (F := walk_members _ _ _ _ _ _ _ L I M). clear L I M W K.
    assert (E : map (verdict negated v) ms = map (meaning negated (fun c => v (bkw_string (matchBKW (c_kw c))) (cond_string c))) ks).
    { revert ms F. induction ks as [|k ks IHk]; intros ms F; inversion F as [|? ? ? ? A B]; subst; [reflexivity|].
      cbn [map]. f_equal; [now apply IH|now apply IHk]. }
    cbn [verdict meaning bc_category bc_member]. rewrite E. destruct w; reflexivity.
Qed.
Lemma walk_unique : forall t s s', walk text_of (bc_member t) s -> walk text_of (bc_member t) s' -> s = s'.
Proof.
  fix IH 1. intros [c|w p f d ks] s s' W W'; inversion W as [b K|b kl ms K L I M]; subst; try discriminate K;
    inversion W' as [b' K'|b' kl' ms' K' L' I' M']; subst; try discriminate K'.
  - reflexivity.
  - assert (F := walk_members _ _ _ _ _ _ _ L I M). assert (F' := walk_members _ _ _ _ _ _ _ L' I' M').
    f_equal. clear - F F' IH. revert ms ms' F F'.
    induction ks as [|k ks IHk]; intros ms ms' F F'; inversion F; inversion F'; subst; [reflexivity|].
    f_equal; [eapply IH; eassumption|now apply IHk].
Qed.
(* Every stack of bind rules can be walked by Kind, Category, IsParen, Len and Index, in
   one way only, and what the walk shows has the boolean value of the stack. *)
Theorem C110_walk : forall t, is_stack t -> exists s,
  walk text_of (BCStack (Some t)) s /\ (forall s', walk text_of (BCStack (Some t)) s' -> s' = s) /\
  forall negated v, verdict negated v s = meaning negated (fun c => v (bkw_string (matchBKW (c_kw c))) (cond_string c)) t.
Proof.
  intros [c|w p f d ks] H; [destruct H|]. destruct (walk_exists (Stk w p f d ks)) as [s S]. exists s.
  split; [exact S|]. split.
  - intros s' S'. exact (walk_unique (Stk w p f d ks) s' s S' S).
  - intros. exact (walk_verdict _ _ (Stk w p f d ks) s S).
Qed.
(* what each of the methods says, for every stack *)
Theorem C110_methods : forall t i, is_stack t -> let b := BCStack (Some t) in
  (bc_index b i = None <-> (bc_len b <= i)%nat) /\
  (bc_isNesting b = true <-> exists j k, bc_index b j = Some k /\ bc_kind k = "stack") /\
  (forall k, bc_index b i = Some k -> bc_isZero k = false /\ (bc_kind k = "stack" \/ bc_kind k = "condition")).
Proof.
  intros [c|w p f d ks] i H; [destruct H|]. cbn zeta. split; [|split].
  - cbn [bc_index bc_len]. rewrite <- nth_error_None. destruct (nth_error ks i); split; congruence.
  - cbn [bc_isNesting]. rewrite existsb_exists. split.
    + intros (k & I & E). apply In_nth_error in I as [j J]. exists j, (bc_member k). cbn. rewrite J.
      split; [reflexivity|]. now destruct k.
    + intros (j & k & J & E). cbn in J. destruct (nth_error ks j) as [t|] eqn:N; [|discriminate].
      injection J as <-. exists t. split; [now apply nth_error_In in N|]. now destruct t.
  - intros k. cbn. destruct (nth_error ks i) as [t|]; [|discriminate]. intros [= <-]. destruct t; cbn; auto.
Qed.
(* over every history of calls: the category is the word of the constructor, IsParen is
   the last state given to Paren, and the rest of the calls change neither *)
Lemma run_stk stop : forall h t, is_stack t -> is_stack (brs_run stop t h) /\
  bc_category (BCStack (Some (brs_run stop t h))) = bc_category (BCStack (Some t)) /\
  bc_isParen (BCStack (Some (brs_run stop t h))) = fold_left (fun p c => match c with SParen b => b | _ => p end) h (bc_isParen (BCStack (Some t))).
Proof.
  induction h as [|a h IH]; intros t H; [auto|]. destruct t as [c|w p f d ks]; [destruct H|].
  destruct a as [xs| |b|b|b];
    (edestruct IH as (A & B & C); [|split; [exact A|]; split; [exact (eq_trans B eq_refl)|exact C]]; exact I).
Qed.
Theorem C110_history : forall stop pad w xs h, let b := BCStack (Some (brs_run stop (brs_new stop pad w xs) h)) in
  bc_kind b = "stack" /\ bc_category b = (match w with WAnd => "and" | WOr => "or" | WNot => "not" end) /\
  bc_isParen b = paren_of h /\ bc_isZero b = false /\ forall setid, bc_id setid b = "bind".
Proof.
  intros stop pad w xs h. cbn zeta. destruct (run_stk stop h (brs_new stop pad w xs)) as (_ & B & C); [exact I|].
  split; [reflexivity|]. split; [rewrite B; now destruct w|]. split; [exact C|]. now split.
Qed.
(* a pushed member is the last position of the stack *)
Theorem C110_push : forall stop w p f d ks x k, brs_push1 ks x = (ks ++ [k])%list ->
  let b := BCStack (Some (Stk w p f d ks)) in
  let b' := BCStack (Some (brs_step stop (Stk w p f d ks) (SPush [x]))) in
  bc_len b' = S (bc_len b) /\ bc_index b' (bc_len b) = Some (bc_member k) /\
  forall i, (i < bc_len b)%nat -> bc_index b' i = bc_index b i.
Proof.
  intros stop w p f d ks x k E. cbn zeta. cbn [brs_step brs_push bc_len bc_index].
  assert (P : push_many stop brs_push1 ks [x] = (ks ++ [k])%list).
  { cbn [push_many]. rewrite E. now destruct (stop && _)%bool. }
  rewrite P, app_length, nth_error_app2, Nat.sub_diag by lia. cbn. split; [lia|]. split; [reflexivity|].
  intros i I. now rewrite nth_error_app1 by exact I.
Qed.
Print Assumptions C110_walk.
Print Assumptions C110_methods.
Print Assumptions C110_history.
Print Assumptions C110_push.
Definition nested : tree := brs_run false (brs_new false true WAnd [PRule (Some cA)]) [SParen true; SPush [PStack (Some (brs_new false true WNot [PRule (Some cB)]))]; SFold true].
Example C110_witness :
  is_stack nested /\
  walk text_of (BCStack (Some nested))
    (SeenStack "and" true [SeenRule (bkw_string (matchBKW (c_kw cA))) (cond_string cA);
                           SeenStack "not" false [SeenRule (bkw_string (matchBKW (c_kw cB))) (cond_string cB)]]) /\
  bc_isNesting (BCStack (Some nested)) = true /\ bc_len (BCStack (Some nested)) = 2%nat /\
  bc_isNesting (BCStack (Some (brs_new false true WOr [PRule (Some cA)]))) = false /\
  brs_push1 [] (PRule (Some cA)) = [Leaf cA].
Proof.
  split; [exact I|]. split.
  - refine (walk_stack text_of (BCStack (Some nested)) [BCRule (Some cA); BCStack (Some (brs_new false true WNot [PRule (Some cB)]))] _ eq_refl eq_refl _ _).
    + intros [|[|i]] H; [reflexivity|reflexivity|]. exfalso. change (S (S i) < 2)%nat in H. lia.
    + constructor; [exact (walk_rule text_of (BCRule (Some cA)) eq_refl)|]. constructor; [|constructor].
      refine (walk_stack text_of (BCStack (Some (brs_new false true WNot [PRule (Some cB)]))) [BCRule (Some cB)] _ eq_refl eq_refl _ _).
      * intros [|i] H; [reflexivity|]. exfalso. change (S i < 1)%nat in H. lia.
      * constructor; [exact (walk_rule text_of (BCRule (Some cB)) eq_refl)|constructor].
  - repeat split; reflexivity.
Qed.

(* ---- C111: the documented texts of Category, Keyword, ID and Traverse ---- *)
(* "the string form of the Keyword, if set, else a zero string": an initialised rule with
   no keyword reports another text *)
Theorem C111_refuted : exists r, br_run None [BInit] = r /\ br_keyword r = 0%N /\ bc_category (BCRule r) <> "".
Proof. exists (Some cond_init). repeat split. vm_compute. discriminate. Qed.
(* exactly: *)
Theorem C111_category : forall c,
  (forall k, eqfold (c_kw c) (bindkw_name k) = true -> bc_category (BCRule (Some c)) = bindkw_name k) /\
  ((forall k, eqfold (c_kw c) (bindkw_name k) = false) -> bc_category (BCRule (Some c)) = "<invalid_bind_keyword>") /\
  bc_category (BCRule None) = "" /\ bc_category (BCStack None) = "<uninitialized_bindrules>".
Proof.
  intros c. destruct (bindkw_lookup bkwMap (Permutation_refl _) (c_kw c)) as [A B].
  split; [|split; [|now split]].
  - intros k E. apply A in E. cbn [bc_category br_keyword]. unfold matchBKW. rewrite E. now destruct k.
  - intros E. apply B in E. cbn [bc_category br_keyword]. unfold matchBKW. now rewrite E.
Qed.
(* a rule whose keyword was set by BR or SetKeyword to one of the eleven reports it *)
Theorem C111_category_set_partial : forall k r, r <> None ->
  bc_category (BCRule (br_step r (BKeyword (bindkw_name k)))) = bindkw_name k.
Proof.
  intros k [c|] H; [|congruence]. destruct k; reflexivity.
Qed.
(* Keyword of a stack is never one of the keywords *)
Theorem C111_stack_keyword : forall nocat t, is_stack t -> bc_keyword nocat (BCStack (Some t)) = 0%N.
Proof. intros nocat [c|[] p f d ks] H; try destruct H; reflexivity. Qed.
(* Keyword of a rule is the keyword its text names, and no keyword for other texts *)
Theorem C111_rule_keyword : forall nocat c,
  (forall k, eqfold (c_kw c) (bindkw_name k) = true -> bc_keyword nocat (BCRule (Some c)) = bindkw_const k) /\
  ((forall k, eqfold (c_kw c) (bindkw_name k) = false) -> bc_keyword nocat (BCRule (Some c)) = 0%N) /\
  bc_keyword nocat (BCRule None) = 0%N.
Proof.
  intros nocat c. destruct (bindkw_lookup bkwMap (Permutation_refl _) (c_kw c)) as [A B]. split; [|split; [|reflexivity]].
  - intros k E. now apply A.
  - intros E. now apply B.
Qed.
(* "ID will report `bind` in all scenarios": so for stacks, zero rules and rules that
   carry the identifier BR gives them *)
Theorem C111_id_partial : forall setid b, bc_id setid b = "bind" <-> bc_isZero b = true \/ bc_kind b = "stack" \/ setid = "bind".
Proof.
  intros setid [[c|]|[t|]]; cbn; intuition congruence.
Qed.
(* "An instance of BindContext is returned, or nil": never nil, whatever go-stackage finds;
   a path that leads nowhere gives the zero BindRules *)
Theorem C111_traverse : forall found,
  (exists b, brs_traverse found = Some b) /\
  (snd found = false -> brs_traverse found = Some (BCStack None)) /\
  (forall b, found = (VCtx b, true) -> brs_traverse found = Some b) /\
  (forall c, found = (VCondition c, true) -> brs_traverse found = Some (BCRule c)) /\
  (found = (VOther, true) -> brs_traverse found = Some (BCRule None)) /\
  forall r, br_traverse r = Some (BCRule r).
Proof.
  intros [v ok]. destruct ok, v; cbn; (split; [eexists; reflexivity|]); repeat split; try congruence; try discriminate; intros ? [= <-]; reflexivity.
Qed.
(* target rules: the same methods *)
Theorem C111_target : forall c,
  (forall k, eqfold (c_kw c) (targetkw_name k) = true -> tr_category (Some c) = targetkw_name k) /\
  ((forall k, eqfold (c_kw c) (targetkw_name k) = false) -> tr_category (Some c) = "<invalid_target_keyword>") /\
  tr_category None = "" /\ (forall r, tr_kind r = "condition" /\ tr_id r = "target" /\ (tr_len r = 0%nat <-> r = None) /\ (tr_len r <= 1)%nat).
Proof.
  intros c. destruct (targetkw_lookup tkwMap (Permutation_refl _) (c_kw c)) as [A B].
  split; [|split; [|split; [reflexivity|]]].
  - intros k E. apply A in E. cbn [tr_category tr_keyword]. unfold matchTKW. rewrite E. now destruct k.
  - intros E. apply B in E. cbn [tr_category tr_keyword]. unfold matchTKW. now rewrite E.
  - intros [d|]; cbn; repeat split; try congruence; try lia.
Qed.
(* a bind rule never nests, is one value, and is its own member and end of every path *)
Theorem C111_rule : forall r i,
  bc_kind (BCRule r) = "condition" /\ bc_isNesting (BCRule r) = false /\ bc_index (BCRule r) i = Some (BCRule r) /\
  (bc_len (BCRule r) = 0%nat <-> bc_isZero (BCRule r) = true) /\ (bc_len (BCRule r) <= 1)%nat /\
  forall b, r <> None -> bc_isParen (BCRule (br_step r (BParen b))) = b.
Proof.
  intros [c|] i; cbn; repeat split; try congruence; try lia.
Qed.
(* a stack that was never made: no members, whatever is asked *)
Theorem C111_zero : forall i, let b := BCStack None in
  bc_isZero b = true /\ bc_len b = 0%nat /\ bc_index b i = None /\ bc_isNesting b = false /\ bc_isParen b = false.
Proof. intros i. now repeat split. Qed.
Print Assumptions C111_zero.
Print Assumptions C111_refuted.
Print Assumptions C111_category.
Print Assumptions C111_category_set_partial.
Print Assumptions C111_stack_keyword.
Print Assumptions C111_rule_keyword.
Print Assumptions C111_id_partial.
Print Assumptions C111_traverse.
Print Assumptions C111_target.
Print Assumptions C111_rule.
Example C111_witness :
  bc_category (BCRule (Some (with_kw cA "TimeOfDay"))) = "timeofday" /\
  bc_category (BCRule (br_step (Some cond_init) (BKeyword "ssf"))) = "ssf" /\
  tr_category (Some (with_kw cA "TargetScope")) = "targetscope" /\
  brs_traverse (VCtx (BCStack (Some nested)), true) = Some (BCStack (Some nested)) /\
  brs_traverse (VOther, false) = Some (BCStack None) /\
  bc_id "bind" (BCRule (Some cA)) = "bind".
Proof. repeat split. Qed.

(* ---- C112: OID ---- *)
(* OID returns for every Keyword: false, a BindKeyword or nil makes it panic *)
Theorem C112_refuted : exists dotnot x kw, OIDof dotnot x kw = Panics.
Proof. exists (fun s => Some s), (IAStr "1.3.6.1"), (KWBind 1). reflexivity. Qed.
(* it panics exactly for the keywords that are not target keywords *)
Theorem C112_panics : forall dotnot x kw, OIDof dotnot x kw = Panics <-> forall k, kw <> KWTarget k.
Proof.
  intros dotnot x [k|k|]; cbn; split; try congruence; intros H; exfalso; now apply (H k).
Qed.
(* with a target keyword and a text: the identifier of that keyword when go-objectid reads
   the text, and otherwise one that is not valid *)
Theorem C112_text : forall dotnot s k,
  (forall t, dotnot s = Some t -> OIDof dotnot (IAStr s) (KWTarget k) = Gives (Some (MkOID k (Some t)))) /\
  (dotnot s = None -> exists o, OIDof dotnot (IAStr s) (KWTarget k) = Gives o /\ oid_valid o = false).
Proof.
  intros dotnot s k. unfold OIDof, newOID. cbn [fold_left oid_set1]. split.
  - intros t E. now rewrite E.
  - intros E. rewrite E. eexists. now split.
Qed.
(* whatever the argument: a result that reports itself valid has the given keyword *)
Theorem C112_valid : forall dotnot x k o, OIDof dotnot x (KWTarget k) = Gives o -> oid_valid o = true ->
  k <> 0%N /\ exists t, o = Some (MkOID k (Some t)).
Proof.
  intros dotnot x k o E V. unfold OIDof, newOID in E. cbn [fold_left] in E.
  assert (X : exists d, o = Some (MkOID k d) \/ o = Some (MkOID 0 d)).
  { destruct (oid_set1 dotnot (None, false) x) as [d e]. exists d. destruct e; injection E as <-; auto. }
  destruct X as [[t|] [->| ->]]; cbn in V; try discriminate V.
  split; [|now exists t]. intros ->. discriminate V.
Qed.
(* "valid [TargetKeyword] contexts are [TargetExtOp] and [TargetCtrl]": every target
   keyword is accepted, and makes a valid identifier and a rule of that keyword *)
Theorem C112_contexts_refuted : forall dotnot s t k, dotnot s = Some t ->
  exists o, OIDof dotnot (IAStr s) (KWTarget (targetkw_const k)) = Gives o /\ oid_valid o = true /\
            br_keyword (oid_Eq false o) = 0%N /\ tr_keyword (oid_Eq false o) = targetkw_const k.
Proof.
  intros dotnot s t k E. exists (Some (MkOID (targetkw_const k) (Some t))).
  split; [now apply C112_text|]. destruct k; repeat split.
Qed.
Print Assumptions C112_refuted.
Print Assumptions C112_panics.
Print Assumptions C112_text.
Print Assumptions C112_valid.
Print Assumptions C112_contexts_refuted.
Example C112_witness :
  let dotnot s := if String.eqb s "1.3.6.1" then Some s else None in
  OIDof dotnot (IAStr "1.3.6.1") (KWTarget TargetCtrl) = Gives (Some (MkOID TargetCtrl (Some "1.3.6.1"))) /\
  OIDof dotnot (IAStr "cn") (KWTarget TargetCtrl) = Gives (Some (MkOID 0 None)) /\
  OIDof dotnot (IAStr "1.3.6.1") KWNil = Panics /\
  tr_string (oid_Eq true (Some (MkOID Target (Some "1.3.6.1")))) = "( target = " ++ quote "1.3.6.1" ++ " )".
Proof. repeat split. Qed.
