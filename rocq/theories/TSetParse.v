(* C179, C180: goroutines that call Set and Parse on one variable. *)
From Coq Require Import String List PeanoNat NArith Bool Lia.
From Verif Require Import GoStr MHeap MMisc MKw MAttr MFilter MUri MFirst MSetParse SSetParse PWhole SWord TFirst.
Import ListNotations.
Open Scope list_scope.

Lemma only_app {E} k (a b : list (nat * E)) : only k (a ++ b) = only k a ++ only k b.
Proof. unfold only. now rewrite filter_app, map_app. Qed.
Lemma only_one {E} k i (e : E) : only k [(i, e)] = if Nat.eqb i k then [e] else [].
Proof. unfold only. cbn. now destruct (Nat.eqb i k). Qed.
Arguments only : simpl never.
Section SP.
Context {V C : Type}.
Variable T : ftype V C.
Variable P : string -> option V.
(* a call of set on the value p that has not been made *)
Definition open (p : nat) (g : sgo V C) : list (scall C) :=
  match sat g with SDo p' c => if Nat.eqb p' p then [SSet c] else [] | _ => [] end.
Fixpoint early (p n : nat) (gs : list (sgo V C)) : list (nat * scall C) :=
  match gs with [] => [] | g :: t => map (fun e => (n, e)) (open p g) ++ early p (S n) t end.
Lemma only_same {E} k (l : list E) : only k (map (fun e => (k, e)) l) = l.
Proof. unfold only. induction l as [|e l IH]; cbn; [reflexivity|]. rewrite Nat.eqb_refl. cbn. now rewrite IH. Qed.
Lemma only_not {E} k n (l : list E) : n <> k -> only k (map (fun e => (n, e)) l) = [].
Proof. intros N. unfold only. induction l as [|e l IH]; cbn; [reflexivity|]. apply Nat.eqb_neq in N. now rewrite N. Qed.
Lemma only_less p gs : forall n k, (k < n)%nat -> only k (early p n gs) = [].
Proof. induction gs as [|g t IH]; intros n k L; cbn; [reflexivity|]. rewrite only_app, only_not by lia. apply IH. lia. Qed.
Lemma only_early p gs : forall n k g, nth_error gs k = Some g -> only (n + k) (early p n gs) = open p g.
Proof.
  induction gs as [|g t IH]; intros n [|k] g' E; cbn in E; [discriminate..| |].
  - injection E as ->. cbn. rewrite only_app, Nat.add_0_r, only_same, only_less by lia. apply app_nil_r.
  - cbn. rewrite only_app, only_not by lia. replace (n + S k)%nat with (S n + k)%nat by lia. now apply IH.
Qed.
Lemma early_in p gs : forall n k e, In (k, e) (early p n gs) -> (n <= k < n + List.length gs)%nat.
Proof.
  induction gs as [|g t IH]; intros n k e H; cbn in H; [destruct H|]. apply in_app_iff in H as [H|H].
  - apply in_map_iff in H as (x & [= <- _] & _). cbn. lia.
  - apply IH in H. cbn. lia.
Qed.

(* the call a goroutine is in, unless it is counted already *)
Definition cur (p : nat) (g : sgo V C) : list (scall C) :=
  match sat g with SOff => [] | SMake c | STake c => [SSet c] | SDo _ _ => open p g | SPut s _ => [SParse s] end.
Record line (v : V) (css : list (list (scall C))) (p : nat) (st : sstate V C) (h : list (nat * scall C)) : Prop := {
  l_var : svar st = Some p;
  l_in : (p < List.length (svals st))%nat;
  l_val : fold_left (s_call T P) (map snd h) (Some v) = Some (nth p (svals st) (fempty T));
  l_nz : fzero T (nth p (svals st) (fempty T)) = false;
  l_len : List.length (sgos st) = List.length css;
  l_log : forall k e, In (k, e) h -> (k < List.length css)%nat;
  l_go : forall k g, nth_error (sgos st) k = Some g ->
    (match sat g with SMake _ => False | SDo p' _ => (p' < List.length (svals st))%nat | SPut s w => P s = Some w | _ => True end) /\
    (forall cs, nth_error css k = Some cs -> cs = only k h ++ cur p g ++ stodo g) }.
Lemma nth_lt2 {A} (l : list A) i x : nth_error l i = Some x -> (i < List.length l)%nat.
Proof. intros E. apply nth_error_Some. now rewrite E. Qed.
Lemma go_css v css p st h i g : line v css p st h -> nth_error (sgos st) i = Some g -> exists cs, nth_error css i = Some cs.
Proof.
  intros L E. apply nth_lt2 in E. rewrite (l_len _ _ _ _ _ L) in E. destruct (nth_error css i) eqn:F; [eauto|]. apply nth_error_None in F. lia.
Qed.
Lemma cur_in v css p st h i g x : line v css p st h -> nth_error (sgos st) i = Some g -> In x (cur p g ++ stodo g) -> exists cs, In cs css /\ In x cs.
Proof.
  intros L E I. destruct (go_css _ _ _ _ _ _ _ L E) as [cs F]. exists cs. split; [now apply nth_error_In in F|].
  rewrite (proj2 (l_go _ _ _ _ _ L i g E) cs F). apply in_app_iff. now right.
Qed.
Lemma wr_val (vs : list V) p x : (p < List.length vs)%nat -> nth p (wr vs p x) (fempty T) = x.
Proof. intros L. apply nth_error_nth. now apply wr_same. Qed.
Lemma wr_val' (vs : list V) p k x : p <> k -> nth p (wr vs k x) (fempty T) = nth p vs (fempty T).
Proof.
  intros N. destruct (nth_error vs p) as [y|] eqn:E.
  - rewrite (nth_error_nth _ _ _ E). apply nth_error_nth. now rewrite wr_other.
  - rewrite !nth_overflow; [reflexivity|now apply nth_error_None|rewrite wr_len; now apply nth_error_None].
Qed.
(* a step of goroutine i that leaves the variable where it is *)
Lemma line_put v css p st h i g g' vs hs : line v css p st h -> nth_error (sgos st) i = Some g ->
  List.length vs = List.length (svals st) ->
  fold_left (s_call T P) (map snd (h ++ map (fun e => (i, e)) hs)) (Some v) = Some (nth p vs (fempty T)) ->
  fzero T (nth p vs (fempty T)) = false ->
  (match sat g' with SMake _ => False | SDo p' _ => (p' < List.length vs)%nat | SPut s w => P s = Some w | _ => True end) ->
  cur p g ++ stodo g = hs ++ cur p g' ++ stodo g' ->
  line v css p (MkSs vs (svar st) (wr (sgos st) i g')) (h ++ map (fun e => (i, e)) hs).
Proof.
  intros L E Len Val Nz Pl Cs. split; cbn.
  - apply L.
  - rewrite Len. apply L.
  - exact Val.
  - exact Nz.
  - rewrite wr_len. apply L.
  - intros k e I. apply in_app_iff in I as [I|I]; [eapply l_log; eauto|]. apply in_map_iff in I as (x & [= <- _] & _).
    rewrite <- (l_len _ _ _ _ _ L). now apply nth_lt2 in E.
  - intros k g0 E0. destruct (Nat.eq_dec k i) as [->|N].
    + rewrite wr_same in E0 by (now apply nth_lt2 in E). injection E0 as <-. split; [exact Pl|]. intros cs F.
      rewrite only_app, only_same, <- app_assoc. rewrite <- Cs. now apply (l_go _ _ _ _ _ L).
    + rewrite wr_other in E0 by exact N. destruct (l_go _ _ _ _ _ L k g0 E0) as [A B]. split.
      * destruct (sat g0); auto. now rewrite Len.
      * intros cs F. rewrite only_app, only_not by auto. rewrite app_nil_r. now apply B.
Qed.
Ltac lp L E := eapply line_put with (hs := []); [exact L|exact E|reflexivity|cbn; rewrite app_nil_r; apply L|apply L| |].
Lemma line_step v css p st h i : s_holds T P v css -> line v css p st h -> exists p' h', line v css p' (s_step T P st i) (h ++ h').
Proof.
  intros (_ & HU & HP) L. unfold s_step. destruct (nth_error (sgos st) i) as [g|] eqn:E; [|exists p, []; now rewrite app_nil_r].
  pose proof (l_go _ _ _ _ _ L i g E) as [A B]. pose proof (fun x => cur_in _ _ _ _ _ _ _ x L E) as CI.
  unfold s_gstep. destruct (sat g) as [|c|c|p' c|s w] eqn:At.
  - destruct (stodo g) as [|[c|s] t] eqn:Td.
    + exists p, (map (fun e => (i, e)) []). lp L E; [now rewrite At|reflexivity].
    + assert (Z : f_isZero T (s_shown T st) = false) by (unfold s_shown; rewrite (l_var _ _ _ _ _ L); cbn; apply L). rewrite Z.
      exists p, (map (fun e => (i, e)) []). lp L E; [exact I|]. unfold cur. cbn. now rewrite At, Td.
    + destruct (P s) as [w|] eqn:Ps.
      * exists p, (map (fun e => (i, e)) []). lp L E; [exact Ps|]. unfold cur. cbn. now rewrite At, Td.
      * exists p, (map (fun e => (i, e)) [SParse s]). eapply line_put; [exact L|exact E|reflexivity| |apply L|exact I|unfold cur; cbn; now rewrite At, Td].
        rewrite map_app, fold_left_app, (l_val _ _ _ _ _ L). cbn. now rewrite Ps.
  - destruct A.
  - replace (match svar st with Some p0 => SDo p0 c | None => SOff end) with (SDo (V:=V) p c) by now rewrite (l_var _ _ _ _ _ L).
    exists p, (map (fun e => (i, e)) []). lp L E; [cbn; apply L|].
    unfold cur, open. cbn. rewrite At. now rewrite Nat.eqb_refl.
  - destruct (Nat.eq_dec p' p) as [->|N].
    + exists p, (map (fun e => (i, e)) [SSet c]). assert (CU : cur p g = [SSet c]) by (unfold cur, open; rewrite At; now rewrite Nat.eqb_refl).
      eapply line_put; [exact L|exact E|apply wr_len| | |exact I|rewrite CU; reflexivity].
      * rewrite map_app, fold_left_app, (l_val _ _ _ _ _ L). cbn. unfold f_set. rewrite (l_nz _ _ _ _ _ L). now rewrite wr_val by apply L.
      * rewrite wr_val by apply L. destruct (CI (SSet c)) as (cs & I1 & I2); [rewrite CU; now left|]. eapply HU; eauto. apply L.
    + exists p, (map (fun e => (i, e)) []). eapply line_put; [exact L|exact E|apply wr_len| | |exact I|].
      * cbn. rewrite app_nil_r, wr_val' by auto. apply L.
      * rewrite wr_val' by auto. apply L.
      * unfold cur, open. cbn. rewrite At. apply Nat.eqb_neq in N. now rewrite N.
  - exists (List.length (svals st)), (early p 0 (sgos st) ++ [(i, SParse s)]). split; cbn.
    + reflexivity.
    + rewrite app_length. cbn. lia.
    + rewrite app_nth2, Nat.sub_diag by lia. cbn. rewrite app_assoc, map_app, fold_left_app. cbn. now rewrite A.
    + rewrite app_nth2, Nat.sub_diag by lia. cbn. destruct (CI (SParse s)) as (cs & I1 & I2); [unfold cur; rewrite At; now left|]. eapply HP; eauto.
    + rewrite wr_len. apply L.
    + intros k e I. apply in_app_iff in I as [I|I]; [eapply l_log; eauto|]. rewrite <- (l_len _ _ _ _ _ L). apply in_app_iff in I as [I|[[= <- _]|[]]].
      * apply early_in in I. lia.
      * now apply nth_lt2 in E.
    + intros k g0 E0. assert (OE : forall g1, nth_error (sgos st) k = Some g1 -> only k (early p 0 (sgos st)) = open p g1) by (intros g1; apply (only_early p _ 0)).
      destruct (Nat.eq_dec k i) as [->|N].
      * rewrite wr_same in E0 by (now apply nth_lt2 in E). injection E0 as <-. cbn. split; [auto|]. intros cs F.
        rewrite !only_app, only_one, Nat.eqb_refl, (OE g E). unfold open. rewrite At. cbn. rewrite <- app_assoc. rewrite (B cs F). unfold cur. now rewrite At.
      * rewrite wr_other in E0 by exact N. destruct (l_go _ _ _ _ _ L k g0 E0) as [A0 B0]. split.
        -- destruct (sat g0); auto. rewrite app_length. lia.
        -- intros cs F. rewrite (B0 cs F), !only_app, only_one, (OE g0 E0). replace (Nat.eqb i k) with false by (symmetry; apply Nat.eqb_neq; auto).
           rewrite app_nil_r, <- app_assoc. f_equal. unfold cur, open. destruct (sat g0) as [|c|c|p' c|s' w'] eqn:A1; try reflexivity.
           replace (Nat.eqb p' (List.length (svals st))) with false by (symmetry; apply Nat.eqb_neq; lia). now destruct (Nat.eqb p' p).
Qed.
Lemma line_run v css q : s_holds T P v css -> exists p h, line v css p (s_sched T P (s_begin (Some v) css) q) h.
Proof.
  intros H. unfold s_sched. assert (forall st, (exists p h, line v css p st h) -> exists p h, line v css p (fold_left (s_step T P) q st) h) as G.
  { induction q as [|i q IH]; intros st L; cbn; [exact L|]. apply IH. destruct L as (p & h & L). destruct (line_step v css p st h i H L) as (p' & h' & L'). eauto. }
  apply G. exists 0, []. split; cbn; auto; [apply H|now rewrite map_length|intros k e []|].
  intros k g E. rewrite nth_error_map in E. destruct (nth_error css k) as [cs|] eqn:F; [|discriminate]. injection E as <-. cbn. split; [auto|]. now intros cs' [= <-].
Qed.
End SP.

(* C179: on a variable that is set, calls of Set and Parse act in some order that keeps the
   order of each goroutine: at every moment the variable shows what the calls done so far make
   in such an order, in the end what all calls make *)
Theorem C179_order : forall V C (T : ftype V C) P v css q, s_holds T P v css ->
  let st := s_sched T P (s_begin (Some v) css) q in
  (exists h, orders_some css h /\ s_shown T st = fold_left (s_call T P) (map snd h) (Some v)) /\
  (s_returned st -> exists h, orders css h /\ s_shown T st = fold_left (s_call T P) (map snd h) (Some v)).
Proof.
  intros V C T P v css q H st. destruct (line_run T P v css q H) as (p & h & L). fold st in L.
  assert (SH : s_shown T st = fold_left (s_call T P) (map snd h) (Some v)).
  { unfold s_shown. rewrite (l_var _ _ _ _ _ _ _ L). symmetry. apply L. }
  assert (GO : forall k es, nth_error css k = Some es -> exists g, nth_error (sgos st) k = Some g).
  { intros k es F. apply nth_lt2 in F. rewrite <- (l_len _ _ _ _ _ _ _ L) in F. destruct (nth_error (sgos st) k) eqn:E; [eauto|]. apply nth_error_None in E. lia. }
  split; [|intros Q]; exists h; (split; [|exact SH]); (split; [apply L|]); intros k es F; destruct (GO k es F) as [g E];
    pose proof (proj2 (l_go _ _ _ _ _ _ _ L k g E) es F) as CS.
  - eauto.
  - destruct (Q g (nth_error_In _ _ E)) as [Td At]. unfold cur in CS. rewrite At, Td in CS. cbn in CS. now rewrite app_nil_r in CS.
Qed.
Theorem C179_uri : forall v css q, let st := s_sched uri_first uri_text (s_begin (Some v) css) q in
  (exists h, orders_some css h /\ s_shown uri_first st = fold_left (s_call uri_first uri_text) (map snd h) (Some v)) /\
  (s_returned st -> exists h, orders css h /\ s_shown uri_first st = fold_left (s_call uri_first uri_text) (map snd h) (Some v)).
Proof. intros v css q. apply C179_order. repeat split. Qed.
Print Assumptions C179_order.
Print Assumptions C179_uri.

(* the hypothesis, and calls that end: a Set that began before the other goroutine's Parse
   stored its value and ends after it comes before it *)
Example C179_witness :
  let v := uri_set uri_new [UStr "ou=a"] in
  let st := s_sched uri_first uri_text (s_begin (Some v) [[SSet [UScope 3%N]]; [SParse "http:"; SParse "ldap:///ou=b"]]) [0; 1; 0; 1; 1; 0] in
  s_holds uri_first uri_text v [[SSet [UScope 3%N]]; [SParse "http:"; SParse "ldap:///ou=b"]] /\ s_returned st /\
  option_map uri_string (s_shown uri_first st) = Some "ldap:///ou=b??base?"%string /\ uri_text "http:" = None.
Proof.
  cbv zeta. split; [repeat split|]. split; [intros g [<-|[<-|[]]]; vm_compute; now split|]. split; vm_compute; reflexivity.
Qed.

(* C180: on a variable that holds nothing, Set loses what Parse stored between the test and
   the store of Set, whatever the arguments and the text *)
Theorem C180_lost : forall V C (T : ftype V C) P c s w, fhow T <> Filled -> P s = Some w ->
  exists q, s_returned (s_sched T P (s_begin None [[SSet c]; [SParse s]]) q) /\
    (exists a b, q = a ++ b /\ s_shown T (s_sched T P (s_begin None [[SSet c]; [SParse s]]) a) = Some w) /\
    s_shown T (s_sched T P (s_begin None [[SSet c]; [SParse s]]) q) = Some (fupd T (fempty T) c).
Proof.
  intros V C T P c s w HT Ps. destruct (fhow T) eqn:F; [|congruence|]; exists [0; 1; 1; 0; 0; 0];
    (split; [|split; [exists [0; 1; 1], [0; 0; 0]; split; [reflexivity|]|]]); unfold s_sched, s_returned; cbn; unfold s_step; cbn; rewrite ?Ps; cbn; rewrite ?F; cbn; rewrite ?F; cbn; try reflexivity;
    intros g [<-|[<-|[]]]; now split.
Qed.
(* so the calls act in no order: a URI that was parsed is lost *)
Theorem C180_refuted : exists css q, let st := s_sched uri_first uri_text (s_begin None css) q in s_returned st /\
  ~ exists h, orders css h /\ s_shown uri_first st = fold_left (s_call uri_first uri_text) (map snd h) None.
Proof.
  exists [[SSet [UScope 3%N]]; [SParse "ldap:///ou=b"]], [0; 1; 1; 0]. cbv zeta. split; [intros g [<-|[<-|[]]]; vm_compute; now split|].
  intros (h & [O1 O2] & S). assert (M : merges [[SSet [UScope 3%N]]; [SParse "ldap:///ou=b"]] h) by (split; [exact O1|intros k es F; symmetry; now apply O2]).
  destruct (two_merges _ _ _ M) as [-> | ->]; vm_compute in S; discriminate S.
Qed.
Print Assumptions C180_lost.
Print Assumptions C180_refuted.

(* ---- AttributeFilter ---- *)
Lemma set1_solid w x : af_isZero (Some w) = false -> fsolid x -> af_isZero (Some (atf_set1 w x)) = false.
Proof.
  destruct w as [a f]. intros Z S. destruct x as [s|a'|f'|]; cbn in *.
  - assert (L : (String.length s =? 0)%nat = false) by (destruct s; [congruence|reflexivity]). destruct (isIdentifier s) eqn:J; cbn.
    + unfold AT. rewrite J. cbn. rewrite L. apply andb_false_r.
    + rewrite !L. reflexivity.
  - rewrite S. apply andb_false_r.
  - now rewrite S.
  - exact Z.
Qed.
Lemma set_solid c : forall w, af_isZero (Some w) = false -> Forall fsolid c -> af_isZero (Some (atf_set w c)) = false.
Proof. induction c as [|x c IH]; intros w Z F; cbn; [exact Z|]. inversion F; subst. apply IH; [now apply set1_solid|assumption]. Qed.
Lemma af_text_solid s v : af_text s = Some v -> af_isZero (Some v) = false.
Proof.
  unfold af_text, af_parse. destruct (_ <? 5)%nat; [discriminate|]. unfold parseAttributeFilter. destruct (idx _ _) as [i|]; [|discriminate].
  destruct (at_isZero (AT (stake i (unquote (condenseWHSP s))))) eqn:Z; [discriminate|]. cbn. intros [= <-]. cbn. rewrite Z. apply andb_false_r.
Qed.
Theorem C179_filter : forall v css q, af_isZero (Some v) = false ->
  (forall cs c x, In cs css -> In (SSet c) cs -> In x c -> fsolid x) ->
  let st := s_sched af_first af_text (s_begin (Some v) css) q in
  (exists h, orders_some css h /\ s_shown af_first st = fold_left (s_call af_first af_text) (map snd h) (Some v)) /\
  (s_returned st -> exists h, orders css h /\ s_shown af_first st = fold_left (s_call af_first af_text) (map snd h) (Some v)).
Proof.
  intros v css q Z A. apply C179_order. split; [exact Z|]. split.
  - intros cs c w I1 I2 W. cbn in *. apply set_solid; [exact W|]. apply Forall_forall. intros x. now apply (A cs).
  - intros cs s w _ _ E. now apply af_text_solid in E.
Qed.
Print Assumptions C179_filter.
Example C179_filter_witness :
  let v := (AT "cn", Filter ["(a=b)"%string]) in let css := [[SSet [FStr "sn"]]; [SParse "mail:(c=d)"]]%string in
  af_isZero (Some v) = false /\ (forall cs c x, In cs css -> In (SSet c) cs -> In x c -> fsolid x) /\
  let st := s_sched af_first af_text (s_begin (Some v) css) [0; 1; 1; 0; 0] in
  s_returned st /\ af_string (s_shown af_first st) = "sn:(c=d)"%string.
Proof.
  cbv zeta. split; [reflexivity|]. split; [|split; [intros g [<-|[<-|[]]]; vm_compute; now split|vm_compute; reflexivity]].
  intros cs c x [<-|[<-|[]]] [H|[]] Ix; [injection H as <-|discriminate H]. destruct Ix as [<-|[]]. discriminate.
Qed.

(* The order keeps time: calls made later are added behind.  h1 is the order at the moment
   after a: it has every call that has returned then, and none that has not begun. *)
Theorem C179_in_time : forall V C (T : ftype V C) P v css a b, s_holds T P v css ->
  let at_ q := s_sched T P (s_begin (Some v) css) q in
  exists h1 h2,
    s_shown T (at_ a) = fold_left (s_call T P) (map snd h1) (Some v) /\
    s_shown T (at_ (a ++ b)) = fold_left (s_call T P) (map snd (h1 ++ h2)) (Some v) /\
    orders_some css (h1 ++ h2) /\
    forall k cs g, nth_error css k = Some cs -> nth_error (sgos (at_ a)) k = Some g ->
      exists now, cs = only k h1 ++ now ++ stodo g /\ (List.length now <= 1)%nat /\ (sat g = SOff -> now = []).
Proof.
  intros V C T P v css a b H at_. destruct (line_run T P v css a H) as (p & h1 & L1). fold (at_ a) in L1.
  assert (G : forall q st p h, line T P v css p st h -> exists p' h', line T P v css p' (fold_left (s_step T P) q st) (h ++ h')).
  { induction q as [|i q IH]; intros st p0 h0 L; cbn; [exists p0, []; now rewrite app_nil_r|].
    destruct (line_step T P v css p0 st h0 i H L) as (p' & h' & L'). destruct (IH _ _ _ L') as (p2 & h2 & L2). exists p2, (h' ++ h2). now rewrite app_assoc. }
  destruct (G b (at_ a) p h1 L1) as (p2 & h2 & L2). exists h1, h2.
  assert (SH : forall q st h, line T P v css q st h -> s_shown T st = fold_left (s_call T P) (map snd h) (Some v)).
  { intros q st h L. unfold s_shown. rewrite (l_var _ _ _ _ _ _ _ L). symmetry. apply L. }
  split; [now apply (SH p)|]. split; [unfold at_, s_sched; rewrite fold_left_app; now apply (SH p2)|]. split.
  - split; [apply L2|]. intros k es F. pose proof (nth_lt2 _ _ _ F) as LT. rewrite <- (l_len _ _ _ _ _ _ _ L2) in LT.
    destruct (nth_error (sgos (fold_left (s_step T P) b (at_ a))) k) as [g|] eqn:E; [|apply nth_error_None in E; lia].
    eexists. exact (proj2 (l_go _ _ _ _ _ _ _ L2 k g E) es F).
  - intros k cs g F E. exists (cur p g). split; [exact (proj2 (l_go _ _ _ _ _ _ _ L1 k g E) cs F)|]. unfold cur, open.
    split; [destruct (sat g); cbn; try lia; destruct (Nat.eqb _ _); cbn; lia|now intros ->].
Qed.
Print Assumptions C179_in_time.
