(* C54: which targattrfilters values are accepted, and what they hold, for every text. *)
From Coq Require Import String Ascii List PeanoNat NArith Bool Lia.
From Verif Require Import GoStr GoStrFacts MMisc MKw MSec MAttr MLists MFilter SMisc SAttr SLists SFilter PMisc PAttr PNet PLists PFilter TFilter.
Import ListNotations.
Open Scope string_scope.

(* at how many places of s the text p starts *)
Fixpoint starts (p s : string) : nat :=
  match s with
  | EmptyString => O
  | String _ r => ((if has_prefix p s then 1 else 0) + starts p r)%nat
  end.
(* the number of operation words *)
Definition op_words (s : string) : nat := (starts "add=" s + starts "delete=" s)%nat.
(* t begins with an operation word *)
Definition op_led (t : string) : Prop := exists op v, (op = AddOp \/ op = DelOp) /\ t = op_word op ++ "=" ++ v.
(* the operation that a text says (C34) *)
Definition says_op (raw : string) (o : afo) : Prop :=
  exists op val items,
    (5 <= String.length (unquote (condenseWHSP raw)))%nat /\
    (op = AddOp \/ op = DelOp) /\
    unquote (condenseWHSP raw) = op_word op ++ "=" ++ val /\
    Forall2 (fun piece i => trim_space piece = fst i ++ ":" ++ snd i /\ attr_name (fst i)) (split2 "&" "&" (trim_space val)) items /\
    o = MkAFO op (map (fun i => Some (Some (fst i), Some (snd i))) (firsts_by same_item (filter has_filter items) [])).
Definition holds_some (o : afo) : bool := match afo_mem o with [] => false | _ => true end.
Definition same_text (a b : afo) : bool := String.eqb (afo_string a) (afo_string b).
(* the operations that a text separated by d says: as many as operation words *)
Definition says_ops (d : ascii) (raw : string) (l : list afo) : Prop :=
  exists os,
    Forall2 (fun piece o => op_led (unquote (condenseWHSP piece)) /\ says_op (unquote (condenseWHSP piece)) o) (split1 d raw) os /\
    op_words raw = List.length os /\
    l = firsts_by same_text (filter holds_some os) [].

Lemma starts_count p : p = "add=" \/ p = "delete=" -> forall s, scount s p = starts p s.
Proof.
  intros Hp. assert (G : forall n s, (String.length s <= n)%nat -> scount s p = starts p s).
  { induction n as [|n IH]; intros s L; [destruct s; [reflexivity|cbn in L; lia]|].
    destruct s as [|c s]; [reflexivity|]. cbn [String.length] in L.
    destruct (has_prefix p (String c s)) eqn:E.
    - apply has_prefix_spec in E as [r E]. assert (K : scount (String c s) p = S (scount r p) /\ starts p (String c s) = S (starts p r)).
      { rewrite E. destruct Hp as [-> | ->]; unfold scount; split; reflexivity. }
      destruct K as [-> ->]. rewrite IH; [reflexivity|]. apply (f_equal String.length) in E. rewrite length_app in E. cbn [String.length] in E.
      destruct Hp as [-> | ->]; cbn in E; lia.
    - assert (K : scount (String c s) p = scount s p /\ starts p (String c s) = starts p s).
      { unfold scount. cbn [count_aux starts]. rewrite E. split; reflexivity. }
      destruct K as [-> ->]. apply IH. lia. }
  intros s. now apply (G (String.length s)).
Qed.
Lemma op_words_count s : op_count s = op_words s.
Proof. unfold op_count, op_words. rewrite !starts_count by auto. reflexivity. Qed.
Lemma op_led_prefix t : hasAFOPrefix t = true <-> op_led t.
Proof.
  unfold hasAFOPrefix. rewrite orb_true_iff, !has_prefix_spec. split.
  - intros [[r ->]|[r ->]]; [exists AddOp, r|exists DelOp, r]; split; auto.
  - intros (op & v & [-> | ->] & ->); [left|right]; now exists v.
Qed.
Lemma parse_ops_all vals : forall d seen r,
  parse_ops vals (MkAFOs d seen) = Some r <->
  exists os, Forall2 (fun piece o => op_led (unquote (condenseWHSP piece)) /\ says_op (unquote (condenseWHSP piece)) o) vals os /\
    r = MkAFOs d (seen ++ firsts_by same_text (filter holds_some os) seen)%list.
Proof.
  induction vals as [|v vals IH]; intros d seen r; cbn [parse_ops].
  - split.
    + intros [= <-]. exists []. split; [constructor|]. cbn. now rewrite app_nil_r.
    + intros (os & F & ->). inversion F; subst. cbn. now rewrite app_nil_r.
  - set (t := unquote (condenseWHSP v)).
    assert (P : forall o, afos_push (MkAFOs d seen) [ASOp o] =
      MkAFOs d (seen ++ (if holds_some o then if existsb (fun y => same_text y o) seen then [] else [o] else []))%list).
    { intros o. unfold afos_push. cbn [fold_left afos_push1 afos_delim afos_mem]. f_equal. unfold push1, afos_policy, afos_contains, holds_some.
      change (existsb (fun y => String.eqb (afo_string y) (afo_string o)) seen) with (existsb (fun y => same_text y o) seen).
      destruct (existsb _ seen); destruct (afo_mem o); cbn [List.length Nat.ltb Nat.leb]; now rewrite ?app_nil_r. }
    assert (S : forall o os, (seen ++ firsts_by same_text (filter holds_some (o :: os)) seen)%list =
      let seen' := (seen ++ (if holds_some o then if existsb (fun y => same_text y o) seen then [] else [o] else []))%list in
      (seen' ++ firsts_by same_text (filter holds_some os) seen')%list).
    { intros o os. cbn [filter]. destruct (holds_some o); cbv zeta; [|now rewrite app_nil_r].
      cbn [firsts_by]. destruct (existsb _ seen); [now rewrite app_nil_r|]. now rewrite <- app_assoc. }
    destruct (hasAFOPrefix t) eqn:E.
    + apply op_led_prefix in E. destruct (parseAFO t) as [o|] eqn:Q.
      * rewrite P, IH. apply C34_exact in Q. split.
        -- intros (os & F & ->). exists (o :: os). split; [constructor; [split; assumption|exact F]|]. now rewrite S.
        -- intros (os & F & ->). inversion F as [|? o' ? os' [_ H] F' A B]. subst. exists os'. split; [exact F'|].
           apply C34_exact in Q. apply C34_exact in H. fold t in H. rewrite Q in H. injection H as <-. now rewrite S.
      * split; [discriminate|]. intros (os & F & _). inversion F as [|? o ? os' [_ H] F' A B]. subst. apply C34_exact in H. fold t in H. rewrite Q in H. discriminate.
    + split; [discriminate|]. intros (os & F & _). inversion F as [|? o ? os' [H _] F' A B]. subst. apply op_led_prefix in H. fold t in H. rewrite E in H. discriminate.
Qed.

Lemma both_len {A B} (R : A -> B -> Prop) l m : Forall2 R l m -> List.length l = List.length m.
Proof. intros H. induction H; cbn; lia. Qed.
(* AttributeFilterOperations.Parse *)
Theorem C54_list_exact : forall raw semi r, parseAFOs raw semi = Some r <->
  exists l, says_ops (if semi then ";" else ",")%char raw l /\ r = MkAFOs "," l.
Proof.
  intros raw semi r. unfold parseAFOs. set (d := if semi then ";"%char else ","%char).
  assert (NZ : List.length (split1 d raw) <> 0%nat) by (assert (X := split1_nonnil d raw); destruct (split1 d raw); [easy|discriminate]).
  rewrite op_words_count. destruct (Nat.eqb_spec (op_words raw) 0) as [Z|_].
  - split; [discriminate|]. intros (l & (os & F & W & _) & _). apply both_len in F. lia.
  - destruct (Nat.eqb_spec (op_words raw) (List.length (split1 d raw))) as [W|W]; cbn [negb].
    + unfold AFOs0. rewrite parse_ops_all. split.
      * intros (os & F & ->). eexists. split; [|reflexivity]. exists os. split; [exact F|]. split; [|reflexivity]. apply both_len in F. lia.
      * intros (l & (os & F & _ & ->) & ->). exists os. split; [exact F|reflexivity].
    + split; [discriminate|]. intros (l & (os & F & W' & _) & _). apply both_len in F. lia.
Qed.

(* The rule reader: a value with a comma is split at commas; one with a semicolon and no comma
   at semicolons; any other is one operation, or one filter that is added. *)
Theorem C54_rule_exact : forall vals r, assertTargetAttrFilters vals = Some r <->
  exists v t l, vals = [v] /\ t = unquote (condenseWHSP v) /\ (3 <= String.length t)%nat /\ r = MkAFOs "," l /\
    ((In ","%char (chars t) /\ says_ops "," v l) \/
     (~ In ","%char (chars t) /\ In ";"%char (chars t) /\ says_ops ";" t l) \/
     (~ In ","%char (chars t) /\ ~ In ";"%char (chars t) /\ op_led t /\ exists o, says_op t o /\ l = filter holds_some [o]) \/
     (~ In ","%char (chars t) /\ ~ In ";"%char (chars t) /\ ~ op_led t /\
      exists a f, t = a ++ ":" ++ f /\ attr_name a /\ l = if String.eqb f "" then [] else [MkAFO AddOp [Some (Some a, Some f)]])).
Proof.
  assert (A1 : forall o, AFOs1 o = MkAFOs "," (filter holds_some [o])).
  { intros o. unfold AFOs1, push1, afos_policy, afos_contains. cbn [existsb filter]. unfold holds_some. now destruct (afo_mem o). }
  assert (IC : forall c s, match idx c s with Some _ => In c (chars s) | None => ~ In c (chars s) end).
  { intros c s. destruct (idx c s) eqn:E.
    - apply idx_split in E as (a & b & -> & _). rewrite chars_app. apply in_app_iff. right. now left.
    - apply idx_none, no_byte_chars in E. exact E. }
  assert (AF1 : forall a f, attr_name a -> filter holds_some [aop_AFO AddOp [AOFilter (Some (Some a, Filter [f]))]] =
      if String.eqb f "" then [] else [MkAFO AddOp [Some (Some a, Some f)]]).
  { intros a f A. unfold aop_AFO. change (aop_label AddOp) with AddOp.
    assert (X := afo_push_item AddOp [] (a, f) (Forall_nil _) A). cbn [map fst snd app existsb] in X. rewrite X.
    unfold has_filter. cbn [snd]. destruct (String.eqb f ""); reflexivity. }
  intros vals r. destruct vals as [|v [|v' vals]].
  - split; [discriminate|]. intros (v & t & l & E & _). discriminate.
  - cbn [assertTargetAttrFilters]. set (t := unquote (condenseWHSP v)).
    assert (C := IC ","%char t). assert (S := IC ";"%char t).
    assert (U : forall X : string -> string -> list afo -> Prop,
      (exists v0 t0 l, [v] = [v0] /\ t0 = unquote (condenseWHSP v0) /\ (3 <= String.length t0)%nat /\ r = MkAFOs "," l /\ X v0 t0 l) <->
      (3 <= String.length t)%nat /\ exists l, r = MkAFOs "," l /\ X v t l).
    { intros X. split.
      - intros (v0 & t0 & l & [= <-] & -> & L & E & H). split; [exact L|]. now exists l.
      - intros (L & l & E & H). exists v, t, l. auto. }
    rewrite U. clear U. destruct (Nat.ltb_spec (String.length t) 3) as [L|L].
    { split; [discriminate|]. intros [H _]. lia. }
    destruct (idx "," t) as [i|].
    + rewrite C54_list_exact. split.
      * intros (l & H & E). split; [exact L|]. exists l. split; [exact E|]. left. now split.
      * intros (_ & l & E & [[_ H]|[[H _]|[[H _]|[H _]]]]); [now exists l|contradiction..].
    + destruct (idx ";" t) as [j|].
      * rewrite C54_list_exact. split.
        -- intros (l & H & E). split; [exact L|]. exists l. split; [exact E|]. right. left. auto.
        -- intros (_ & l & E & [[H _]|[(_ & _ & H)|[(_ & H & _)|(_ & H & _)]]]); [contradiction|now exists l|contradiction..].
      * destruct (hasAFOPrefix t) eqn:P.
        -- assert (O := proj1 (op_led_prefix t) P). split.
           ++ destruct (parseAFO t) as [o|] eqn:Q; [|discriminate]. intros [= <-]. split; [exact L|]. eexists. split; [apply A1|].
              right. right. left. split; [exact C|]. split; [exact S|]. split; [exact O|]. exists o. split; [now apply C34_exact|reflexivity].
           ++ intros (_ & l & -> & [[H _]|[(_ & H & _)|[(_ & _ & _ & o & H & ->)|(_ & _ & H & _)]]]); [contradiction|contradiction| |contradiction].
              apply C34_exact in H. rewrite H. f_equal. apply A1.
        -- assert (O : ~ op_led t) by (intros X; apply op_led_prefix in X; rewrite P in X; discriminate). split.
           ++ destruct (parseAttributeFilter t) as [f|] eqn:Q; [|discriminate]. intros [= <-]. split; [exact L|].
              apply parse_filter_inv in Q as ((a & f0) & [Et A] & ->). cbn [fst snd] in *. unfold item_text in Et. cbn [fst snd] in Et.
              eexists. split; [apply A1|]. right. right. right. split; [exact C|]. split; [exact S|]. split; [exact O|].
              exists a, f0. split; [exact Et|]. split; [exact A|]. now apply AF1.
           ++ intros (_ & l & -> & [[H _]|[(_ & H & _)|[(_ & _ & H & _)|(_ & _ & _ & a & f & Et & A & ->)]]]); [contradiction|contradiction|contradiction|].
              rewrite Et, parse_filter_item by exact A. f_equal. rewrite A1. f_equal. now apply AF1.
  - split; [discriminate|]. intros (w & t & l & E & _). discriminate.
Qed.
Print Assumptions C54_list_exact.
Print Assumptions C54_rule_exact.
Example C54_exact_witness :
  says_ops "," "add=cn:(x=1), delete=sn:(y=2)&&sn:" [built_op (AddOp, [("cn", "(x=1)")]); built_op (DelOp, [("sn", "(y=2)")])] /\
  ~ (exists l, says_ops ";" "add=cn;lang-en:(x=1)" l) /\
  option_map (fun r => map afo_string (afos_mem r)) (assertTargetAttrFilters ["cn:(x=1)"]) = Some ["add=cn:(x=1)"].
Proof.
  split; [|split].
  - destruct (proj1 (C54_list_exact "add=cn:(x=1), delete=sn:(y=2)&&sn:" false
      (MkAFOs "," [built_op (AddOp, [("cn", "(x=1)")]); built_op (DelOp, [("sn", "(y=2)")])]))) as (l & H & [= <-]); [vm_compute; reflexivity|exact H].
  - intros [l H]. assert (X := proj2 (C54_list_exact "add=cn;lang-en:(x=1)" true (MkAFOs "," l)) (ex_intro _ l (conj H eq_refl))).
    vm_compute in X. discriminate X.
  - reflexivity.
Qed.
