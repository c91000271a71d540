(* C177 and C178: goroutines that call Parse on one variable and read it. *)
From Coq Require Import String List PeanoNat NArith Bool Lia.
From Verif Require Import GoStr MHeap MKw MAttr MFilter MUri MView TView MParseGo SParseGo PWhole.
Import ListNotations.
Open Scope list_scope.

Lemma nth_lt' {A} (l : list A) i x : nth_error l i = Some x -> (i < List.length l)%nat.
Proof. intros E. apply nth_error_Some. now rewrite E. Qed.
Lemma map_wr {A B} (f : A -> B) (l : list A) i x : map f (wr l i x) = wr (map f l) i (f x).
Proof. revert i. induction l as [|a l IH]; intros [|i]; cbn; [reflexivity..|]. now rewrite IH. Qed.
Lemma nth_map {A B} (f : A -> B) (l : list A) i x : nth_error l i = Some x -> nth_error (map f l) i = Some (f x).
Proof. intros E. now rewrite nth_error_map, E. Qed.

(* who stored last, over the lists of calls that have returned *)
Definition owner {I X} (G : I -> X -> Prop) (N : I -> Prop) (r v : X) (D : list (list (gcall I))) : Prop :=
  (v = r /\ forall d s, In d D -> In (GParse s) d -> N s) \/
  (exists k d h1 s h2, nth_error D k = Some d /\ d = h1 ++ GParse s :: h2 /\ G s v /\ forall t, In (GParse t) h2 -> N t).
Lemma owner_grow {I X} (G : I -> X -> Prop) N r v D i d c : owner G N r v D -> nth_error D i = Some d ->
  (forall s, c = GParse s -> N s) -> owner G N r v (wr D i (d ++ [c])).
Proof.
  intros O E C. assert (L := nth_lt' _ _ _ E). destruct O as [[-> A]|(k & e & h1 & s & h2 & K & -> & S & T)].
  - left. split; [reflexivity|]. intros e s Ie Is. apply wr_in in Ie as [->|Ie]; [|eapply A; eassumption].
    apply in_app_iff in Is as [Is|[Is|[]]]; [apply (A d s); [now apply nth_error_In in E|exact Is]|now apply C].
  - right. destruct (Nat.eq_dec k i) as [->|Ne].
    + rewrite E in K. injection K as ->. exists i, ((h1 ++ GParse s :: h2) ++ [c]), h1, s, (h2 ++ [c]).
      split; [now apply wr_same|]. split; [now rewrite <- app_assoc|]. split; [exact S|].
      intros t It. apply in_app_iff in It as [It|[It|[]]]; [now apply T|now apply C].
    + exists k, (h1 ++ GParse s :: h2), h1, s, h2. split; [now rewrite wr_other|]. now repeat split.
Qed.
Lemma owner_new {I X} (G : I -> X -> Prop) N r v D i d s : nth_error D i = Some d -> G s v -> owner G N r v (wr D i (d ++ [GParse s])).
Proof.
  intros E S. right. exists i, (d ++ [GParse s]), d, s, []. split; [apply wr_same; now apply nth_lt' in E|]. split; [reflexivity|]. split; [exact S|]. intros t [].
Qed.
Lemma owner_last {I R} (P : R -> I -> option (R * bool)) r v css : owner (gives P) (refuses P) r v css -> last_word P r css v.
Proof.
  intros [O|(k & d & h1 & s & h2 & K & E & S & T)]; [now left|]. right. exists d, h1, s, h2.
  split; [now apply nth_error_In in K|]. now repeat split.
Qed.

Section One.
Context {I R : Type}.
Variable P : R -> I -> option (R * bool).
Hypothesis TR : transactional P.
Lemma P_some r s v : P r s = Some (v, true) -> gives P s v.
Proof. intros E. destruct (TR s) as [N|[N|[w N]]]; rewrite N in E; [discriminate..|]. injection E as <-. exact N. Qed.
Lemma P_no r s v : P r s = Some (v, false) -> refuses P s.
Proof. intros E. destruct (TR s) as [N|[N|[w N]]]; rewrite N in E; [discriminate| |discriminate]. exact N. Qed.
Definition calls_of (g : ggo I R) : list (gcall I) :=
  map fst (gret g) ++ match gat g with GOff => gtodo g | GStore s _ | GDead s => GParse s :: gtodo g end.
Record inv1 (r : R) (css : list (list (gcall I))) (st : gstate I R) : Prop := {
  i_calls : map calls_of (ggos st) = css;
  i_store : forall g s v, In g (ggos st) -> gat g = GStore s v -> gives P s v;
  i_var : possible P r css (gvar st);
  i_ret : forall g a, In g (ggos st) -> In a (gret g) -> right_answer P (possible P r css) a;
  i_own : owner (gives P) (refuses P) r (gvar st) (map (fun g => map fst (gret g)) (ggos st)) }.
Lemma inv1_start r css : inv1 r css (g_start r css).
Proof.
  unfold g_start. split; cbn.
  - rewrite map_map. cbn. induction css as [|c cs IH]; cbn; [reflexivity|]. f_equal. exact IH.
  - intros g s v Ig E. apply in_map_iff in Ig as (cs & <- & _). discriminate E.
  - now left.
  - intros g a Ig Ia. apply in_map_iff in Ig as (cs & <- & _). destruct Ia.
  - left. split; [reflexivity|]. intros d s Id Is. rewrite map_map in Id. apply in_map_iff in Id as (cs & <- & _). destruct Is.
Qed.
Lemma wr_id {A} (l : list A) i x : nth_error l i = Some x -> wr l i x = l.
Proof. revert i. induction l as [|a l IH]; intros [|i] E; cbn in *; [discriminate..|now injection E as ->|]. f_equal. now apply IH. Qed.
(* a step of goroutine i that turns g into g' and the variable into v *)
Lemma inv1_put r css st i g g' v : inv1 r css st -> nth_error (ggos st) i = Some g -> calls_of g' = calls_of g ->
  (forall s w, gat g' = GStore s w -> gives P s w) -> possible P r css v ->
  ((gret g' = gret g /\ v = gvar st) \/ exists c o, gret g' = gret g ++ [(c, o)] /\ right_answer P (possible P r css) (c, o) /\
     ((v = gvar st /\ forall s, c = GParse s -> refuses P s) \/ exists s, c = GParse s /\ gives P s v)) ->
  inv1 r css (MkGs v (wr (ggos st) i g')).
Proof.
  intros V E C S Pv H. split; cbn.
  - rewrite map_wr, C, wr_id; [apply V|now apply nth_map].
  - intros h s w Ih Eh. apply wr_in in Ih as [->|Ih]; [now apply S|]. exact (i_store _ _ _ V h s w Ih Eh).
  - exact Pv.
  - intros h a Ih Ia. apply wr_in in Ih as [->|Ih]; [|exact (i_ret _ _ _ V h a Ih Ia)]. apply nth_error_In in E.
    destruct H as [[Hr _]|(c & o & Hr & RA & _)]; rewrite Hr in Ia; [exact (i_ret _ _ _ V g a E Ia)|].
    apply in_app_iff in Ia as [Ia|[<-|[]]]; [exact (i_ret _ _ _ V g a E Ia)|exact RA].
  - rewrite map_wr. pose proof (nth_map (fun g => map fst (gret g)) _ _ _ E) as ED. cbv beta in ED.
    destruct H as [[Hr ->]|(c & o & Hr & RA & H)]; rewrite Hr; [rewrite wr_id; [apply V|exact ED]|].
    rewrite map_app. cbn [map fst]. destruct H as [[-> H]|(s & -> & H)]; [now apply owner_grow; [apply V| |]|now apply owner_new].
Qed.
Lemma inv1_step r css st i : inv1 r css st -> inv1 r css (g_step P st i).
Proof.
  intros V. unfold g_step. destruct (nth_error (ggos st) i) as [g|] eqn:E; [|exact V].
  pose proof (nth_error_In _ _ E) as Ig.
  assert (IC : In (calls_of g) css) by (rewrite <- (i_calls _ _ _ V); now apply in_map).
  unfold g_gstep. destruct (gat g) as [|s v|s] eqn:A.
  - destruct (gtodo g) as [|[s|] t] eqn:T.
    + apply (inv1_put r css st i g g); auto; [intros s w Es; congruence|apply V].
    + destruct (P (gvar st) s) as [[v [|]]|] eqn:Ps.
      * apply (inv1_put r css st i g); auto; [unfold calls_of; cbn; now rewrite A, T| |apply V].
        cbn. intros s' w [= <- <-]. eapply P_some, Ps.
      * apply (inv1_put r css st i g); auto; [unfold calls_of; cbn; rewrite A, T, map_app, <- app_assoc; reflexivity|cbn; discriminate|apply V|].
        right. exists (GParse s), (RDone false). cbn. apply P_no in Ps. repeat split; [exact Ps|]. left. split; [reflexivity|]. now intros s' [= <-].
      * apply (inv1_put r css st i g); auto; [unfold calls_of; cbn; now rewrite A, T|cbn; discriminate|apply V].
    + apply (inv1_put r css st i g); auto; [unfold calls_of; cbn; rewrite A, T, map_app, <- app_assoc; reflexivity|cbn; discriminate|apply V|].
      right. exists GRead, (RSeen (gvar st)). cbn. repeat split; [apply V|]. left. now split.
  - pose proof (i_store _ _ _ V g s v Ig A) as Gv.
    apply (inv1_put r css st i g); auto; [unfold calls_of; cbn; rewrite A, map_app, <- app_assoc; reflexivity|cbn; discriminate| |].
    + right. exists (calls_of g), s. repeat split; [exact IC| |exact Gv]. unfold calls_of. rewrite A. apply in_app_iff. right. now left.
    + right. exists (GParse s), (RDone true). cbn. repeat split; [now exists v|]. right. now exists s.
  - apply (inv1_put r css st i g g); auto; [intros s' w Es; congruence|apply V].
Qed.
Lemma inv1_run r css q : inv1 r css (g_sched P (g_start r css) q).
Proof.
  unfold g_sched. assert (forall st, inv1 r css st -> inv1 r css (fold_left (g_step P) q st)) as H.
  { induction q as [|i q IH]; intros st V; cbn; [exact V|]. apply IH. now apply inv1_step. }
  apply H, inv1_start.
Qed.
Lemma dead1 r css q g s : In g (ggos (g_sched P (g_start r css) q)) -> gat g = GDead s -> exists x, P x s = None.
Proof.
  assert (forall st, (forall g, In g (ggos st) -> gat g = GDead s -> exists x, P x s = None) ->
    forall g, In g (ggos (fold_left (g_step P) q st)) -> gat g = GDead s -> exists x, P x s = None) as H.
  { induction q as [|i l IH]; intros st V; cbn; [exact V|]. apply IH. clear g. intros g Ig Ag. unfold g_step in Ig.
    destruct (nth_error (ggos st) i) as [h|] eqn:E; [|now apply (V g)]. destruct (g_gstep P (gvar st) h) as [v h'] eqn:S. cbn in Ig.
    apply wr_in in Ig as [->|Ig]; [|now apply (V g)]. pose proof (V h (nth_error_In _ _ E)) as Vh.
    unfold g_gstep in S. destruct (gat h) as [|s' w|s'] eqn:A.
    - destruct (gtodo h) as [|[s'|] t] eqn:T; [injection S as <- <-; congruence| |injection S as <- <-; discriminate Ag].
      injection S as <- <-. destruct (P (gvar st) s') as [[w [|]]|] eqn:Ps; cbn in Ag; try discriminate Ag. injection Ag as ->. now exists (gvar st).
    - injection S as <- <-. discriminate Ag.
    - injection S as <- <-. apply Vh. congruence. }
  intros Ig. apply (H (g_start r css)); [|exact Ig]. cbn. intros g' Ig' A. apply in_map_iff in Ig' as (cs & <- & _). discriminate A.
Qed.
Lemma together : parse_together P.
Proof.
  intros r css q st. pose proof (inv1_run r css q) as V. fold st in V. split; [apply V|]. split; [intros; eapply i_ret; eauto|].
  intros Q. assert (EQ : map (fun g => map fst (gret g)) (ggos st) = css).
  { rewrite <- (i_calls _ _ _ V) at 1. apply map_ext_in. intros g Ig. destruct (Q g Ig) as [T A]. unfold calls_of. rewrite A, T. now rewrite app_nil_r. }
  split; [exact EQ|]. apply owner_last. rewrite <- EQ at 1. apply V.
Qed.
(* what is left to do *)
Definition left1 (g : ggo I R) : nat :=
  match gat g with GOff => 2 * List.length (gtodo g) | GStore _ _ => S (2 * List.length (gtodo g)) | GDead _ => 0 end.
Lemma left1_step st i : forall k g, nth_error (ggos st) k = Some g -> exists g', nth_error (ggos (g_step P st i)) k = Some g' /\
  (left1 g' <= left1 g - (if Nat.eq_dec i k then 1 else 0))%nat.
Proof.
  intros k g E. unfold g_step. destruct (nth_error (ggos st) i) as [h|] eqn:Ei.
  - destruct (g_gstep P (gvar st) h) as [v h'] eqn:S. cbn. destruct (Nat.eq_dec i k) as [->|Ne].
    + rewrite E in Ei. injection Ei as ->. exists h'. split; [apply wr_same; now apply nth_lt' in E|].
      unfold g_gstep in S. unfold left1. destruct (gat h) as [|s w|s] eqn:A.
      * destruct (gtodo h) as [|[s|] t] eqn:T; [injection S as <- <-; rewrite A, T; cbn; lia| |injection S as <- <-; cbn; lia].
        injection S as <- <-. destruct (P (gvar st) s) as [[w [|]]|]; cbn; lia.
      * injection S as <- <-. cbn. lia.
      * injection S as <- <-. rewrite A. lia.
    + exists g. split; [rewrite wr_other; auto|lia].
  - exists g. split; [exact E|]. destruct (Nat.eq_dec i k) as [->|Ne]; [congruence|lia].
Qed.
Lemma left1_run q : forall st k g, nth_error (ggos st) k = Some g -> exists g', nth_error (ggos (g_sched P st q)) k = Some g' /\
  (left1 g' <= left1 g - count_occ Nat.eq_dec q k)%nat.
Proof.
  induction q as [|i q IH]; intros st k g E; cbn; [exists g; split; [exact E|lia]|].
  destruct (left1_step st i k g E) as (g1 & E1 & L1). destruct (IH _ _ _ E1) as (g2 & E2 & L2). exists g2. split; [exact E2|].
  destruct (Nat.eq_dec i k); lia.
Qed.
Lemma never_waits r css q k cs : nth_error css k = Some cs -> enough q k (2 * List.length cs) ->
  exists g, nth_error (ggos (g_sched P (g_start r css) q)) k = Some g /\
    ((gtodo g = [] /\ gat g = GOff) \/ exists s, In (GParse s) cs /\ forall x, P x s = None).
Proof.
  intros E Q. destruct (left1_run q (g_start r css) k (MkGg cs GOff [])) as (g & Eg & L); [cbn; now rewrite nth_error_map, E|].
  exists g. split; [exact Eg|]. unfold left1 in L at 2. cbn in L. unfold enough in Q. unfold left1 in L.
  destruct (gat g) as [|s w|s] eqn:A; [|lia|].
  - left. split; [|reflexivity]. destruct (gtodo g); [reflexivity|cbn in L; lia].
  - right. exists s. split.
    + pose proof (nth_map calls_of _ _ _ Eg) as C. rewrite (i_calls _ _ _ (inv1_run r css q)) in C. rewrite E in C. injection C as ->.
      unfold calls_of. rewrite A. apply in_app_iff. right. now left.
    + pose proof (dead1 r css q g s (nth_error_In _ _ Eg) A) as [x D]. destruct (TR s) as [N|[N|[w N]]]; [exact N|rewrite N in D; discriminate..].
Qed.
End One.

(* C177: at every moment the variable holds what it held or what one accepted text says; every
   call returns what it returns alone; in the end the last accepted text of one goroutine
   says what the variable holds *)
Theorem C177_rules : forall W brs pm, parse_together (BindRule_Parse W) /\ parse_together (BindRules_Parse W brs) /\
  parse_together (TargetRule_Parse W) /\ parse_together (TargetRules_Parse W) /\ parse_together (Permission_Parse W pm) /\
  parse_together (PermissionBindRule_Parse W) /\ parse_together (PermissionBindRules_Parse W) /\ parse_together (Instruction_Parse W).
Proof.
  intros W brs pm. destruct (C84_bind W brs) as [A B]. destruct (C84_target W) as [C D]. destruct (C84_permission W pm) as (E & F & G & H).
  repeat apply conj; now apply together.
Qed.
Theorem C177_texts :
  parse_together (fun r raw => Some (LDAPURI_Parse r raw)) /\
  parse_together (fun r x => Some (AFOs_Parse r (fst x) (snd x))) /\
  parse_together (fun r raw => Some (AFO_Parse r raw)) /\
  parse_together (fun r raw => Some (AF_Parse r raw)).
Proof. destruct C84_texts as (A & B & C & D & _). repeat apply conj; now apply together. Qed.
Print Assumptions C177_rules.
Print Assumptions C177_texts.

(* no call waits for another goroutine: two turns for each call are enough, unless a text of
   the goroutine makes Parse panic *)
Theorem C177_no_waiting : forall R I (P : R -> I -> option (R * bool)) r css q k cs, transactional P -> nth_error css k = Some cs ->
  enough q k (2 * List.length cs) ->
  exists g, nth_error (ggos (g_sched P (g_start r css) q)) k = Some g /\
    ((gtodo g = [] /\ gat g = GOff) \/ exists s, In (GParse s) cs /\ forall x, P x s = None).
Proof. intros R I P r css q k cs T. now apply never_waits. Qed.
Print Assumptions C177_no_waiting.
(* two goroutines parse into one LDAPURI, a third reads it: it sees the first value, then the
   second; the first one is stored last *)
Example C177_witness :
  let P := fun r raw => Some (LDAPURI_Parse r raw) in
  let u := option_map uri_string in
  let css := [[GParse "ldap:///ou=a"]; [GParse "http:"; GParse "ldap:///ou=b??sub?"]; [GRead; GRead]]%string in
  let st := g_sched P (g_start None css) [0; 1; 1; 2; 1; 2; 0] in
  g_returned st /\ u (gvar st) = Some "ldap:///ou=a??base?"%string /\
  map (fun g => map snd (gret g)) (ggos st) =
    [[RDone true]; [RDone false; RDone true]; [RSeen None; RSeen (parseLDAPURI "ldap:///ou=b??sub?" [])]] /\
  u (parseLDAPURI "ldap:///ou=b??sub?" []) = Some "ldap:///ou=b??sub?"%string.
Proof. cbv zeta. split; [intros g [<-|[<-|[<-|[]]]]; vm_compute; now split|]. repeat apply conj; vm_compute; reflexivity. Qed.

(* ---- AttributeBindTypeOrValue ---- *)
Lemma abtv_gives r s v b : ABTV_Parse r (fst s) (snd s) = (v, b) ->
  if b then gives abtv_P s v /\ ab_kw v = BindUAT else refuses abtv_P s.
Proof.
  unfold abtv_P, gives, refuses, ABTV_Parse. destruct (abtv_parse (fst s) (snd s)) as [w|] eqn:E; intros [= <- <-]; [|reflexivity].
  split; [reflexivity|]. unfold abtv_parse, parseATBTV in E. destruct (idx _ (fst s)); [|discriminate].
  destruct (String.eqb _ _); [discriminate|]. destruct (negb _); injection E as <-; reflexivity.
Qed.
Lemma gives_kw s v : gives abtv_P s v -> ab_kw v = BindUAT.
Proof. intros G. specialize (G abtv_zero). injection G as G. apply (abtv_gives _ _ _ true G). Qed.
(* what a text says of the pointer *)
Definition gives_pair (s : barg) (p : option pair_t) : Prop := exists v, gives abtv_P s v /\ ab_pair v = p.
(* the words of a copy: each of the start or of a text *)
Definition words (r : abtv) css (v : abtv) : Prop :=
  (ab_kw v = ab_kw r \/ (ab_kw v = BindUAT /\ exists w, given abtv_P css w)) /\
  (ab_pair v = ab_pair r \/ exists w, given abtv_P css w /\ ab_pair v = ab_pair w).
Lemma words_put k r css v w : words r css v -> words r css w -> words r css (b_put k v w).
Proof. intros [A B] [C D]. destruct k; unfold words, b_put; cbn; now split. Qed.
Lemma words_given r css w : given abtv_P css w -> words r css w.
Proof. intros G. split; right; [|now exists w]. split; [|now exists w]. destruct G as (cs & s & _ & _ & G). now apply gives_kw in G. Qed.
Section Two.
Variable kf : bool.
Definition calls_of2 (g : bgo) : list (gcall barg) :=
  map fst (bret g) ++ match bat g with BOff => btodo g | BOne s _ | BTwo s _ => GParse s :: btodo g | BCopy _ => GRead :: btodo g end.
(* the calls that have stored their pointer; their keyword *)
Definition stored (k : bool) (g : bgo) : list (gcall barg) :=
  map fst (bret g) ++ match bat g with BTwo s _ => if Bool.eqb k kf then [GParse s] else [] | _ => [] end.
Record inv2 (r : abtv) (css : list (list (gcall barg))) (st : bstate) : Prop := {
  j_calls : map calls_of2 (bgos st) = css;
  j_store : forall g s v, In g (bgos st) -> bat g = BOne s v \/ bat g = BTwo s v -> gives abtv_P s v;
  j_copy : forall g c, In g (bgos st) -> bat g = BCopy c -> words r css c;
  j_var : words r css (bvar st);
  j_ret : forall g a, In g (bgos st) -> In a (bret g) -> right_answer abtv_P (words r css) a;
  j_kw : owner (fun s k => (exists v, gives abtv_P s v) /\ k = BindUAT) (refuses abtv_P) (ab_kw r) (ab_kw (bvar st)) (map (stored true) (bgos st));
  j_own : owner gives_pair (refuses abtv_P) (ab_pair r) (ab_pair (bvar st)) (map (stored false) (bgos st)) }.
Lemma inv2_start r css : inv2 r css (b_start r css).
Proof.
  unfold b_start. split; cbn.
  - rewrite map_map. cbn. induction css as [|c cs IH]; cbn; [reflexivity|]. f_equal. exact IH.
  - intros g s v Ig E. apply in_map_iff in Ig as (cs & <- & _). destruct E; discriminate.
  - intros g c Ig E. apply in_map_iff in Ig as (cs & <- & _). discriminate.
  - split; now left.
  - intros g a Ig Ia. apply in_map_iff in Ig as (cs & <- & _). destruct Ia.
  - left. split; [reflexivity|]. intros d s Id Is. rewrite map_map in Id. apply in_map_iff in Id as (cs & <- & _). destruct Is.
  - left. split; [reflexivity|]. intros d s Id Is. rewrite map_map in Id. apply in_map_iff in Id as (cs & <- & _). destruct Is.
Qed.
(* how the calls that have stored one word change *)
Definition moved {X} (G : barg -> X -> Prop) (old new : list (gcall barg)) (x y : X) : Prop :=
  (new = old /\ y = x) \/ (exists c, new = old ++ [c] /\ y = x /\ forall s, c = GParse s -> refuses abtv_P s) \/
  (exists s, new = old ++ [GParse s] /\ G s y).
Lemma owner_moved {X} (G : barg -> X -> Prop) (f : bgo -> list (gcall barg)) r x y gs i g g' : owner G (refuses abtv_P) r x (map f gs) -> nth_error gs i = Some g ->
  moved G (f g) (f g') x y -> owner G (refuses abtv_P) r y (map f (wr gs i g')).
Proof.
  intros O E M. apply (nth_map f) in E. rewrite map_wr. destruct M as [[-> ->]|[(c & -> & -> & C)|(s & -> & S)]];
    [now rewrite wr_id|now apply owner_grow|now apply owner_new].
Qed.
Lemma inv2_put r css st i g g' v : inv2 r css st -> nth_error (bgos st) i = Some g -> calls_of2 g' = calls_of2 g ->
  (forall s w, bat g' = BOne s w \/ bat g' = BTwo s w -> gives abtv_P s w) -> (forall c, bat g' = BCopy c -> words r css c) -> words r css v ->
  (forall a, In a (bret g') -> In a (bret g) \/ right_answer abtv_P (words r css) a) ->
  moved (fun s k => (exists v, gives abtv_P s v) /\ k = BindUAT) (stored true g) (stored true g') (ab_kw (bvar st)) (ab_kw v) ->
  moved gives_pair (stored false g) (stored false g') (ab_pair (bvar st)) (ab_pair v) ->
  inv2 r css (MkBs v (wr (bgos st) i g')).
Proof.
  intros V E C S K Pv H MK MP. pose proof (nth_error_In _ _ E) as Ig. split; cbn.
  - rewrite map_wr, C, wr_id; [apply V|now apply nth_map].
  - intros h s w Ih Eh. apply wr_in in Ih as [->|Ih]; [now apply S|]. exact (j_store _ _ _ V h s w Ih Eh).
  - intros h c Ih Eh. apply wr_in in Ih as [->|Ih]; [now apply K|]. exact (j_copy _ _ _ V h c Ih Eh).
  - exact Pv.
  - intros h a Ih Ia. apply wr_in in Ih as [->|Ih]; [|exact (j_ret _ _ _ V h a Ih Ia)].
    destruct (H a Ia) as [Ia'|RA]; [exact (j_ret _ _ _ V g a Ig Ia')|exact RA].
  - exact (owner_moved _ _ _ _ _ _ _ _ _ (j_kw _ _ _ V) E MK).
  - exact (owner_moved _ _ _ _ _ _ _ _ _ (j_own _ _ _ V) E MP).
Qed.
Lemma inv2_step r css st i : inv2 r css st -> inv2 r css (b_step kf st i).
Proof.
  intros V. unfold b_step. destruct (nth_error (bgos st) i) as [g|] eqn:E; [|exact V].
  pose proof (nth_error_In _ _ E) as Ig. pose proof (j_var _ _ _ V) as JV.
  assert (IC : In (calls_of2 g) css) by (rewrite <- (j_calls _ _ _ V); now apply in_map).
  assert (GV : forall s v, bat g = BOne s v \/ bat g = BTwo s v -> gives abtv_P s v /\ words r css v).
  { intros s v A. pose proof (j_store _ _ _ V g s v Ig A) as Gv. split; [exact Gv|]. apply words_given. exists (calls_of2 g), s.
    repeat split; [exact IC| |exact Gv]. unfold calls_of2. destruct A as [A|A]; rewrite A; apply in_app_iff; right; now left. }
  unfold b_gstep. destruct (bat g) as [|s v|s v|c] eqn:A.
  - destruct (btodo g) as [|[s|] t] eqn:T.
    + apply (inv2_put r css st i g g); auto; [intros s w [?|?]; congruence|intros c ?; congruence|now left|now left].
    + destruct (ABTV_Parse (bvar st) (fst s) (snd s)) as [v [|]] eqn:Ps; pose proof (abtv_gives _ _ _ _ Ps) as G; cbn in G.
      * apply (inv2_put r css st i g); auto; [unfold calls_of2; cbn; now rewrite A, T| |cbn; discriminate| |].
        -- cbn. intros s' w [[= <- <-]|]; [apply G|discriminate].
        -- left. unfold stored. cbn. now rewrite A.
        -- left. unfold stored. cbn. now rewrite A.
      * apply (inv2_put r css st i g); auto; [unfold calls_of2; cbn; rewrite A, T, map_app, <- app_assoc; reflexivity|cbn; intros s' w [?|?]; discriminate|cbn; discriminate| | |].
        -- cbn. intros a Ia. apply in_app_iff in Ia as [Ia|[<-|[]]]; [now left|right; exact G].
        -- right. left. exists (GParse s). unfold stored. cbn. rewrite A, map_app, !app_nil_r. repeat split. now intros s' [= <-].
        -- right. left. exists (GParse s). unfold stored. cbn. rewrite A, map_app, !app_nil_r. repeat split. now intros s' [= <-].
    + apply (inv2_put r css st i g); auto; [unfold calls_of2; cbn; now rewrite A, T|cbn; intros s' w [?|?]; discriminate|cbn; now intros c [= <-]| |].
      * left. unfold stored. cbn. now rewrite A.
      * left. unfold stored. cbn. now rewrite A.
  - destruct (GV s v (or_introl eq_refl)) as [Gv Wv].
    apply (inv2_put r css st i g); auto; [unfold calls_of2; cbn; now rewrite A| |cbn; discriminate|now apply words_put| |].
    + cbn. intros s' w [|[= <- <-]]; [discriminate|exact Gv].
    + unfold stored. cbn [bret bat]. rewrite A, app_nil_r. destruct kf; cbn; [right; right; exists s; split; [reflexivity|]|left; now rewrite app_nil_r].
      split; [now exists v|now apply gives_kw in Gv].
    + unfold stored. cbn [bret bat]. rewrite A, app_nil_r. destruct kf; cbn; [left; now rewrite app_nil_r|right; right; exists s; split; [reflexivity|]].
      now exists v.
  - destruct (GV s v (or_intror eq_refl)) as [Gv Wv].
    apply (inv2_put r css st i g); auto; [unfold calls_of2; cbn; rewrite A, map_app, <- app_assoc; reflexivity|cbn; intros s' w [?|?]; discriminate|cbn; discriminate|now apply words_put| | |].
    + cbn. intros a Ia. apply in_app_iff in Ia as [Ia|[<-|[]]]; [now left|right; now exists v].
    + unfold stored. cbn [bret bat]. rewrite A, map_app. cbn [map fst]. rewrite app_nil_r. destruct kf; cbn; [now left|right; right; exists s; split; [now rewrite app_nil_r|]].
      split; [now exists v|now apply gives_kw in Gv].
    + unfold stored. cbn [bret bat]. rewrite A, map_app. cbn [map fst]. rewrite app_nil_r. destruct kf; cbn; [right; right; exists s; split; [now rewrite app_nil_r|]|now left].
      now exists v.
  - pose proof (j_copy _ _ _ V g c Ig A) as Wc.
    apply (inv2_put r css st i g); auto; [unfold calls_of2; cbn; rewrite A, map_app, <- app_assoc; reflexivity|cbn; intros s' w [?|?]; discriminate|cbn; discriminate| | |].
    + cbn. intros a Ia. apply in_app_iff in Ia as [Ia|[<-|[]]]; [now left|right]. now apply words_put.
    + right. left. exists GRead. unfold stored. cbn. rewrite A, map_app, !app_nil_r. now repeat split.
    + right. left. exists GRead. unfold stored. cbn. rewrite A, map_app, !app_nil_r. now repeat split.
Qed.
Lemma inv2_run r css q : inv2 r css (b_sched kf (b_start r css) q).
Proof.
  unfold b_sched. assert (forall st, inv2 r css st -> inv2 r css (fold_left (b_step kf) q st)) as H.
  { induction q as [|i q IH]; intros st V; cbn; [exact V|]. apply IH. now apply inv2_step. }
  apply H, inv2_start.
Qed.
End Two.

(* C178: what a copy of the variable may be, and the variable at every moment: the keyword of
   the start, or userattr if some text is accepted; the pair of the start or of a text.  So
   its text is that of the start or of a text that was given. *)
Theorem C178_words : forall kf r css q, let st := b_sched kf (b_start r css) q in
  let ok v := ((ab_kw v = ab_kw r \/ (ab_kw v = BindUAT /\ exists w, given abtv_P css w)) /\
               exists w, possible abtv_P r css w /\ ab_pair v = ab_pair w /\ abtv_string v = abtv_string w) in
  ok (bvar st) /\ (forall g a, In g (bgos st) -> In a (bret g) -> right_answer abtv_P ok a).
Proof.
  intros kf r css q st ok. pose proof (inv2_run kf r css q) as V. fold st in V.
  assert (OK : forall v, words r css v -> ok v).
  { intros v [A B]. split; [exact A|]. unfold abtv_string. destruct B as [B|(w & G & B)];
      [exists r; rewrite B; repeat split; now left|exists w; rewrite B; repeat split; now right]. }
  split; [apply OK, V|]. intros g a Ig Ia. pose proof (j_ret _ _ _ _ V g a Ig Ia) as RA. destruct a as [[s|] [[|]|v]]; cbn in *; auto.
Qed.
(* if the variable has the keyword userattr, every copy is whole *)
Theorem C178_userattr : forall kf r css q, ab_kw r = BindUAT -> let st := b_sched kf (b_start r css) q in
  possible abtv_P r css (bvar st) /\
  (forall g a, In g (bgos st) -> In a (bret g) -> right_answer abtv_P (possible abtv_P r css) a).
Proof.
  intros kf r css q K st. pose proof (inv2_run kf r css q) as V. fold st in V.
  assert (OK : forall v, words r css v -> possible abtv_P r css v).
  { intros [k p] [A B]. cbn in *. assert (k = BindUAT) as -> by (destruct A as [->|[-> _]]; [exact K|reflexivity]).
    destruct B as [->|(w & G & ->)].
    - left. destruct r as [k p]. cbn in *. now subst.
    - right. destruct G as (cs & s & I1 & I2 & G). exists cs, s. repeat split; [exact I1|exact I2|]. pose proof (gives_kw _ _ G) as E. destruct w as [k w]. cbn in *. now subst. }
  split; [apply OK, V|]. intros g a Ig Ia. pose proof (j_ret _ _ _ _ V g a Ig Ia) as RA. destruct a as [[s|] [[|]|v]]; cbn in *; auto.
Qed.
(* whatever keyword it has: when all calls have returned, the variable is whole *)
Theorem C178_end : forall kf r css q, let st := b_sched kf (b_start r css) q in b_returned st ->
  map (fun g => map fst (bret g)) (bgos st) = css /\ last_word abtv_P r css (bvar st).
Proof.
  intros kf r css q st Q. pose proof (inv2_run kf r css q) as V. fold st in V.
  assert (EQ : map (fun g => map fst (bret g)) (bgos st) = css).
  { rewrite <- (j_calls _ _ _ _ V) at 1. apply map_ext_in. intros g Ig. destruct (Q g Ig) as [T A]. unfold calls_of2. rewrite A, T. now rewrite app_nil_r. }
  split; [exact EQ|]. pose proof (j_kw _ _ _ _ V) as OK. pose proof (j_own _ _ _ _ V) as OP.
  assert (ES : forall k, map (stored kf k) (bgos st) = css).
  { intros k. rewrite <- EQ. apply map_ext_in. intros g Ig. destruct (Q g Ig) as [T A]. unfold stored. rewrite A. apply app_nil_r. }
  rewrite ES in OK, OP. destruct (bvar st) as [k p] eqn:Ev. cbn in OK, OP.
  destruct OK as [[-> NK]|(i & d & h1 & s & h2 & Ei & -> & [[v Gv] ->] & NK)].
  - destruct OP as [[-> NP]|(j & e & g1 & t & g2 & Ej & -> & (w & Gw & <-) & NP)].
    + left. split; [now destruct r|exact NP].
    + exfalso. apply nth_error_In in Ej. assert (refuses abtv_P t) as RF by (apply (NK _ t Ej); apply in_app_iff; right; now left).
      specialize (RF r). rewrite (Gw r) in RF. discriminate.
  - destruct OP as [[-> NP]|(j & e & g1 & t & g2 & Ej & -> & (w & Gw & <-) & NP)].
    + exfalso. apply nth_error_In in Ei. assert (refuses abtv_P s) as RF by (apply (NP _ s Ei); apply in_app_iff; right; now left).
      specialize (RF r). rewrite (Gv r) in RF. discriminate.
    + right. exists (g1 ++ GParse t :: g2), g1, t, g2. apply nth_error_In in Ej. repeat split; [exact Ej| |exact NP].
      pose proof (gives_kw _ _ Gw) as E. destruct w as [k w]. cbn in *. now rewrite <- E.
Qed.
(* a method that reads sees the keyword of one value with the pair of another, whichever word
   is stored first *)
Theorem C178_refuted : forall kf, exists r css q g v, In g (bgos (b_sched kf (b_start r css) q)) /\
  In (GRead, RSeen v) (bret g) /\ ~ possible abtv_P r css v /\
  (if kf then v = MkABTV BindUAT (ab_pair r) else ab_kw v = BindGAT /\ ab_pair v <> ab_pair r).
Proof.
  intros kf. set (r := GAT [BAT (AT "manager"); BAV (AV "x")]). set (s := ("owner#y"%string, []) : barg).
  exists r, [[GParse s]; [GRead]], [0; 0; 1; 1; 0].
  assert (NP : forall v, (ab_kw v, ab_pair v) <> (ab_kw r, ab_pair r) -> (ab_kw v, ab_pair v) <> (BindUAT, Some (Some (AT "owner"), SAV (AV "y"))) ->
    ~ possible abtv_P r [[GParse s]; [GRead]] v).
  { intros v A B [->|(cs & t & Ic & It & G)]; [now apply A|]. destruct Ic as [<-|[<-|[]]]; destruct It as [It|[]]; [|discriminate].
    injection It as <-. specialize (G r). apply B. vm_compute in G. injection G as <-. reflexivity. }
  destruct kf; (eexists; eexists; split; [right; left; reflexivity|]; split; [left; reflexivity|]; split;
    [apply NP; vm_compute; discriminate|vm_compute; try split; (reflexivity || discriminate)]).
Qed.
Print Assumptions C178_words.
Print Assumptions C178_userattr.
Print Assumptions C178_end.
Print Assumptions C178_refuted.
Example C178_witness : forall kf, let st := b_sched kf (b_start (UAT [BAT (AT "manager"); BAV (AV "x")])
    [[GParse ("owner#y"%string, [])]; [GParse ("cn"%string, []); GParse ("cn#z"%string, [Some BindGAT])]; [GRead]]) [0; 1; 0; 2; 1; 1; 1; 2; 0] in
  b_returned st /\ abtv_string (bvar st) = Some (if kf then "owner#y" else "cn#z")%string /\ ab_kw (bvar st) = BindUAT.
Proof. intros [|]; (split; [intros g [<-|[<-|[<-|[]]]]; vm_compute; now split|split; vm_compute; reflexivity]). Qed.
