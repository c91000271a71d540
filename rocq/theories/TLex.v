(* C68: what the text of an instruction determines. *)
From Coq Require Import String Ascii List PeanoNat NArith ZArith Bool Lia.
From Verif Require Import GoStr GoStrFacts Shifty MMisc MLists MRights MKw SKw PKw MRule PRule MConv MTree MAci SAci PAci TRule TAci SLex.
Import ListNotations.
Open Scope string_scope.

Lemma scan_app stop a : forall q b, scan stop q (a ++ b) = match scan stop q a with Some q' => scan stop q' b | None => None end.
Proof.
  induction a as [|c a IH]; intros q b; [reflexivity|]. change (String c a ++ b) with (String c (a ++ b)). cbn [scan].
  destruct (Ascii.eqb c "034"); [apply IH|]. destruct (negb q && Ascii.eqb c stop)%bool; [reflexivity|apply IH].
Qed.
Lemma closed_app stop a b : closed stop a -> closed stop b -> closed stop (a ++ b).
Proof. unfold closed. intros A B. now rewrite scan_app, A. Qed.
Lemma scan_cut stop a : stop <> "034"%char -> forall q b x y, scan stop q a = Some false -> scan stop q b = Some false ->
  a ++ String stop x = b ++ String stop y -> a = b /\ x = y.
Proof.
  intros S. assert (S' : Ascii.eqb stop "034" = false) by now apply Ascii.eqb_neq.
  induction a as [|c a IH]; intros q [|d b] x y A B E.
  - injection E as E. auto.
  - injection E as E _. subst d. cbn [scan] in A, B. injection A as ->. rewrite S', Ascii.eqb_refl in B. discriminate B.
  - injection E as E _. subst c. cbn [scan] in A, B. injection B as ->. rewrite S', Ascii.eqb_refl in A. discriminate A.
  - change (String c (a ++ String stop x) = String d (b ++ String stop y)) in E. injection E as -> E. cbn [scan] in A, B.
    destruct (Ascii.eqb d "034"); [|destruct (negb q && Ascii.eqb d stop)%bool; [discriminate A|]]; destruct (IH _ b x y A B E) as [-> ->]; auto.
Qed.
Lemma closed_pad stop b : stop <> " "%char -> closed stop (padding b).
Proof. intros N. destruct b; [|reflexivity]. unfold closed. cbn [padding scan]. apply not_eq_sym, Ascii.eqb_neq in N. now rewrite N. Qed.

(* ---- target rules ---- *)
Lemma closed_op c : closed ")" (op_text (c_op c)).
Proof.
  destruct (c_op c) as [n|]; [|reflexivity]. cbn [op_text]. unfold cop_string.
  repeat match goal with |- closed _ (if ?b then _ else _) => destruct b; [reflexivity|] end. reflexivity.
Qed.
Definition tr_body (c : cond) : string :=
  padding (c_pad c) ++ (c_kw c ++ padding (c_pad c) ++ op_text (c_op c) ++ padding (c_pad c) ++ val_text c) ++ padding (c_pad c).
Lemma app_assoc_s (a b c : string) : (a ++ b) ++ c = a ++ b ++ c.
Proof. induction a as [|x a IH]; cbn; [reflexivity|now rewrite IH]. Qed.
Lemma tr_string_body c x : tr_string (Some c) ++ x = "(" ++ tr_body c ++ ")" ++ x.
Proof.
  assert (E : tr_string (Some c) = "(" ++ padding (c_pad c) ++ (c_kw c ++ padding (c_pad c) ++ op_text (c_op c) ++ padding (c_pad c) ++ val_text c) ++ padding (c_pad c) ++ ")") by now destruct c.
  rewrite E. unfold tr_body. rewrite !app_assoc_s. reflexivity.
Qed.
Lemma tr_body_closed c k : c_kw c = targetkw_name k -> closed ")" (val_text c) -> closed ")" (tr_body c).
Proof.
  intros K V. unfold tr_body. rewrite K. assert (P : closed ")" (padding (c_pad c))) by now apply closed_pad.
  repeat apply closed_app; try exact P; [|apply closed_op|exact V]. destruct k; reflexivity.
Qed.
Lemma join_nil_app (l : list string) : join "" l = fold_right append "" l.
Proof.
  induction l as [|x [|y l] IH]; [reflexivity| |].
  - cbn. now rewrite app_nil_r'.
  - rewrite join_cons, IH. reflexivity.
Qed.
Definition tgood (r : rule) : Prop := exists c k, r = Some c /\ c_kw c = targetkw_name k /\ closed ")" (val_text c).
Lemma trs_cut l : forall l' x y, (forall r, In r l -> tgood r) -> (forall r, In r l' -> tgood r) ->
  trs_string false l ++ "(version" ++ x = trs_string false l' ++ "(version" ++ y -> map tr_string l = map tr_string l' /\ x = y.
Proof.
  unfold trs_string. rewrite join_nil_app. setoid_rewrite join_nil_app.
  assert (H : forall r u v, tgood r -> tr_string r ++ u = "(version" ++ v -> False).
  { intros r u v (c & k & -> & K & _) E. rewrite tr_string_body in E. unfold tr_body in E. rewrite K in E.
    destruct (c_pad c); [discriminate E|]. destruct k; discriminate E. }
  induction l as [|r l IH]; intros [|r' l'] x y G G' E; cbn [map fold_right] in *.
  - split; [reflexivity|]. now injection E.
  - exfalso. rewrite app_assoc_s in E. symmetry in E. apply (H r' _ _ (G' r' (or_introl eq_refl)) E).
  - exfalso. rewrite app_assoc_s in E. apply (H r _ _ (G r (or_introl eq_refl)) E).
  - destruct (G r (or_introl eq_refl)) as (c & k & -> & K & V), (G' r' (or_introl eq_refl)) as (c' & k' & -> & K' & V').
    rewrite !app_assoc_s, !tr_string_body in E. injection E as E.
    destruct (scan_cut ")" (tr_body c) ltac:(discriminate) false (tr_body c') _ _ (tr_body_closed c k K V) (tr_body_closed c' k' K' V') E) as [B E0]. clear E. rename E0 into E.
    apply IH in E as [E1 E2]; [|intros s I; apply G; now right|intros s I; apply G'; now right]. split; [|exact E2].
    assert (T : tr_string (Some c) = tr_string (Some c')).
    { assert (Q := tr_string_body c ""). assert (Q' := tr_string_body c' ""). rewrite app_nil_r' in Q, Q'. rewrite Q, Q', B. reflexivity. }
    now rewrite E1, T.
Qed.

(* ---- permission-bind rules ---- *)
Lemma closed_join stop sep l : closed stop sep -> (forall x, In x l -> closed stop x) -> closed stop (join sep l).
Proof.
  intros S. induction l as [|x [|y l] IH]; intros H; [reflexivity|apply H; now left|]. rewrite join_cons.
  apply closed_app; [apply H; now left|]. apply closed_app; [exact S|]. apply IH. intros z I. apply H. now right.
Qed.
Lemma right_texts P : P "" -> (forall k v, In (k, v) rightsMap -> P v) -> forall n, P (right_string n).
Proof.
  intros E H n. unfold right_string. assert (G : forall t, incl t rightsMap -> P (match lookup_num t n with Some s => s | None => "" end)).
  { induction t as [|[k v] t IH]; intros I; [exact E|]. cbn [lookup_num]. destruct (k =? n)%N; [apply (H k), I; now left|]. apply IH. intros z J. apply I. now right. }
  apply G, incl_refl.
Qed.
Lemma perm_text sh p : perm_valid p = true -> closed ";" (perm_string sh p) /\ no_byte " " (perm_string sh p) = true /\ exists x, perm_string sh p = "a" ++ x \/ perm_string sh p = "d" ++ x.
Proof.
  destruct p as [|d v]; [discriminate|intros _]. cbn [perm_string]. unfold perm_sprintf. cbn [perm_disposition].
  assert (N : forall x, In x (perm_right_names sh v) -> closed ";" x /\ no_byte " " x = true).
  { assert (R : forall n, closed ";" (right_string n) /\ no_byte " " (right_string n) = true).
    { apply (right_texts (fun x => closed ";" x /\ no_byte " " x = true)); [split; reflexivity|]. intros k t I. cbn in I. repeat destruct I as [I|I]; try contradiction; injection I as <- <-; split; reflexivity. }
    intros x. unfold perm_right_names. repeat match goal with |- context [if ?b then _ else _] => destruct b end; intros I.
    - destruct I as [<-|[]]. apply R.
    - destruct I as [<-|[<-|[]]]; apply R.
    - destruct I as [<-|[]]. apply R.
    - apply in_map_iff in I as (i & <- & _). apply R. }
  split; [|split].
  - repeat apply closed_app; [destruct d; reflexivity|reflexivity| |reflexivity]. apply closed_join; [reflexivity|]. intros x I. now apply N.
  - rewrite !no_byte_app, (no_byte_join " " "," _ eq_refl (fun x I => proj2 (N x I))). destruct d; reflexivity.
  - destruct d; eexists; [left|right]; reflexivity.
Qed.
Lemma byte_cut c a : forall b x y, no_byte c a = true -> no_byte c b = true -> a ++ String c x = b ++ String c y -> a = b /\ x = y.
Proof.
  induction a as [|d a IH]; intros [|e b] x y A B E.
  - injection E as E. auto.
  - injection E as E _. subst e. cbn in B. rewrite Ascii.eqb_refl in B. discriminate B.
  - injection E as E _. subst d. cbn in A. rewrite Ascii.eqb_refl in A. discriminate A.
  - change (String d (a ++ String c x) = String e (b ++ String c y)) in E. injection E as -> E.
    cbn in A, B. apply andb_true_iff in A as [_ A], B as [_ B]. destruct (IH b x y A B E) as [-> ->]. auto.
Qed.
Section PBRs.
Variable W : world.
Definition pgood (r : pbr) : Prop := pbr_valid r = true /\ exists p b, r = Some (MkPB p (Some b)) /\ closed ";" (bctx_string W b).
Lemma pbr_text p b x : pbr_valid (Some (MkPB p (Some b))) = true -> perm_valid p = true /\
  pbr_string W (Some (MkPB p (Some b))) ++ x = (perm_string (e_shifty (w_env W)) p ++ String " " (bctx_string W b)) ++ String ";" x.
Proof.
  intros V. split.
  - unfold pbr_valid in V. destruct (pbr_isZero _); [discriminate V|]. cbn [pb_p] in V. now apply andb_true_iff in V as [V _].
  - unfold pbr_string. rewrite V, !app_assoc_s. reflexivity.
Qed.
Lemma pbr_first r x : pgood r -> pbr_string W r ++ x <> ")".
Proof.
  intros (V & p & b & -> & C). destruct (pbr_text p b x V) as [Vp E]. rewrite E.
  destruct (perm_text (e_shifty (w_env W)) p Vp) as (_ & _ & u & [-> | ->]); discriminate.
Qed.
Lemma pbrs_cut l : forall l', (forall r, In r l -> pgood r) -> (forall r, In r l' -> pgood r) ->
  pbrs_string W l ++ ")" = pbrs_string W l' ++ ")" -> map (granting W) l = map (granting W) l'.
Proof.
  assert (F : forall r l, join " " (map (pbr_string W) (r :: l)) ++ ")" = pbr_string W r ++ match l with [] => ")" | _ => " " ++ (join " " (map (pbr_string W) l) ++ ")") end).
  { intros s [|t m]; [reflexivity|]. cbn [map]. rewrite join_cons, !app_assoc_s. reflexivity. }
  unfold pbrs_string. induction l as [|r l IH]; intros [|r' l'] G G' E.
  - reflexivity.
  - exfalso. rewrite F in E. symmetry in E. exact (pbr_first _ _ (G' r' (or_introl eq_refl)) E).
  - exfalso. rewrite F in E. exact (pbr_first _ _ (G r (or_introl eq_refl)) E).
  - rewrite !F in E. destruct (G r (or_introl eq_refl)) as (V & p & b & -> & C), (G' r' (or_introl eq_refl)) as (V' & p' & b' & -> & C').
    destruct (pbr_text p b (match l with [] => ")" | _ => " " ++ (join " " (map (pbr_string W) l) ++ ")") end) V) as [Vp T]. rewrite T in E.
    destruct (pbr_text p' b' (match l' with [] => ")" | _ => " " ++ (join " " (map (pbr_string W) l') ++ ")") end) V') as [Vp' T']. rewrite T' in E.
    destruct (perm_text (e_shifty (w_env W)) p Vp) as (P1 & P2 & _), (perm_text (e_shifty (w_env W)) p' Vp') as (P1' & P2' & _).
    apply (scan_cut ";" _ ltac:(discriminate) false) in E as [B E].
    + apply byte_cut in B as [B1 B2]; [|exact P2|exact P2']. cbn [map granting]. rewrite B1, B2. f_equal.
      destruct l as [|s l], l' as [|s' l']; [reflexivity|discriminate E|discriminate E|]. apply IH; [intros t I; apply G; now right|intros t I; apply G'; now right|]. now injection E.
    + apply closed_app; [exact P1|]. apply (closed_app ";" " " (bctx_string W b)); [reflexivity|exact C].
    + apply closed_app; [exact P1'|]. apply (closed_app ";" " " (bctx_string W b')); [reflexivity|exact C'].
Qed.
End PBRs.

(* Missing from C68: labels with a quotation mark, and values with a mark that is not
   closed or with a closing parenthesis or semicolon outside of marks, for which it is
   false (C68_refuted). *)
Theorem C68_readable_partial : forall W a b, readable W a -> readable W b ->
  ins_string W (Some a) = ins_string W (Some b) ->
  i_label a = i_label b /\ map tr_string (i_trs a) = map tr_string (i_trs b) /\ map (granting W) (i_pbrs a) = map (granting W) (i_pbrs b).
Proof.
  intros W a b (La & Ta & Pa) (Lb & Tb & Pb) E. cbn [ins_string] in E.
  apply (trs_cut (i_trs a) (i_trs b)) in E as [T E]; [|exact Ta|exact Tb]. injection E as E.
  apply quote_split in E as [L E]; [|exact La|exact Lb]. injection E as E. split; [exact L|]. split; [exact T|].
  now apply pbrs_cut.
Qed.
Print Assumptions C68_readable_partial.
Example C68_readable_witness : exists a, ACI W0 [IStr "lbl"; ITR (ex_tr TgFilter "(cn=a)"); IPBR theA; IPBR theB] = Some a /\ readable W0 a /\
  i_pbrs a = [theA; theB] /\ map tr_string (i_trs a) = ["( targetfilter = " ++ quote "(cn=a)" ++ " )"].
Proof.
  eexists. split; [vm_compute; reflexivity|]. split; [|split; vm_compute; reflexivity]. split; [reflexivity|]. split.
  - intros r [<-|[]]. eexists. exists TgFilter. split; [reflexivity|]. split; reflexivity.
  - intros r [<-|[<-|[]]]; (split; [reflexivity|]); eexists; eexists; (split; [reflexivity|vm_compute; reflexivity]).
Qed.
(* the condition on the values is needed: with labels that have no quotation mark, the
   text of one target rule can contain a whole instruction *)
Definition grant (v : string) : pbr := PBR (Allow (e_shifty (w_env W0)) [MRights.AStr "read"]) (Some (BCRule (BR true "ssf" (OCop Eq) (Some (XText v))))).
Definition one_ins (scope label v : string) : instr := MkIns label [ex_tr TgScope scope] [grant v].
Theorem C68_values_refuted :
  ~ (forall W a b, no_quote (i_label a) = true -> no_quote (i_label b) = true ->
       ins_string W (Some a) = ins_string W (Some b) -> i_label a = i_label b) /\
  ~ (forall W a b, no_quote (i_label a) = true -> no_quote (i_label b) = true ->
       ins_string W (Some a) = ins_string W (Some b) -> map tr_string (i_trs a) = map tr_string (i_trs b)).
Proof.
  set (mid := dq ++ " )(version 3.0; acl " ++ dq).
  assert (E : ins_string W0 (Some (one_ins ("one" ++ mid ++ "y" ++ dq ++ "; allow(read) ssf = " ++ dq ++ "1") "x" "2")) =
              ins_string W0 (Some (one_ins "one" "y" ("1" ++ mid ++ "x" ++ dq ++ "; allow(read) ssf = " ++ dq ++ "2")))) by (vm_compute; reflexivity).
  split; intros H; apply (H W0) in E; try reflexivity; vm_compute in E; discriminate E.
Qed.
Print Assumptions C68_values_refuted.
