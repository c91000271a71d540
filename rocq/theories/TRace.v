(* C146: goroutines that push on one list. *)
From Coq Require Import String List PeanoNat Bool Lia.
From Verif Require Import GoStr MMisc MHeap MLists MFilter MAci MConv MRace SRace.
Import ListNotations.
Open Scope list_scope.

Lemma wr_mid' {A} (l1 : list A) g g' l2 : wr (l1 ++ g :: l2) (List.length l1) g' = l1 ++ g' :: l2.
Proof. induction l1 as [|a l1 IH]; [reflexivity|]. cbn. now rewrite IH. Qed.

Section Race.
Variable A : Type.
Variable same : A -> A -> bool.
Variable good : A -> bool.
Notation run := (race_run A same good).
Notation start := (race_start A).
Notation step := (race_step A same good).
Lemma rrun_snoc st q i : run st (q ++ [i]) = step (run st q) i.
Proof. unfold race_run. now rewrite fold_left_app. Qed.
Lemma step_split st i : (exists l1 g l2 l' g', snd st = l1 ++ g :: l2 /\ i = List.length l1 /\ pu_step A same good (fst st) g = (l', g') /\ step st i = (l', l1 ++ g' :: l2)) \/ step st i = st.
Proof.
  unfold race_step. destruct (nth_error (snd st) i) as [g|] eqn:E; [|now right]. left. apply nth_error_split in E. destruct E as (l1 & l2 & E & <-).
  destruct (pu_step A same good (fst st) g) as [l' g'] eqn:P. exists l1, g, l2, l', g'. rewrite E, wr_mid'. auto.
Qed.

(* ---- members come from the pushes, and nothing is lost ---- *)
Definition from (xss : list (list A)) (x : A) : Prop := exists xs, In xs xss /\ In x xs.
Definition holds_of (g : pusher A) : list A := match pat g with Ready => queue g | Looking x _ | Appending x => x :: queue g end.
Lemma source_inv xss q : let st := run (start xss) q in
  (forall x, In x (fst st) -> good x = true /\ from xss x) /\
  (forall g, In g (snd st) -> (forall x, In x (holds_of g) -> from xss x) /\ match pat g with Appending x => good x = true | _ => True end).
Proof.
  induction q as [|i q IH] using rev_ind.
  - split; [intros x []|]. intros g G. cbn in G. apply in_map_iff in G. destruct G as (xs & <- & X). split; [|exact I]. intros x I'. now exists xs.
  - cbv zeta in *. rewrite rrun_snoc. set (st := run (start xss) q) in *. destruct IH as [IL IG].
    destruct (step_split st i) as [(l1 & g & l2 & l' & g' & E & _ & P & ->)|H]; [|now rewrite H]. cbn [fst snd].
    assert (Gg : In g (snd st)) by (rewrite E; apply in_elt). destruct (IG g Gg) as [Hg Ag].
    assert (K : (forall x, In x l' -> good x = true /\ from xss x) /\ (forall x, In x (holds_of g') -> from xss x) /\ match pat g' with Appending x => good x = true | _ => True end).
    { unfold pu_step in P. destruct g as [qu w]. unfold holds_of in *. cbn [queue pat] in *. destruct w as [|x k|x].
      - destruct qu as [|x qu]; injection P as <- <-; cbn [queue pat]; auto.
      - destruct (nth_error (fst st) k) as [y|]; [destruct (same y x)|]; try (injection P as <- <-; cbn [queue pat]; split; [exact IL|]; split; [|exact I]; intros z Z; apply Hg; cbn; auto; fail).
        injection P as <- <-. split; [exact IL|]. cbn [queue pat]. destruct (good x) eqn:Gx; cbn [queue pat]; split; auto. intros z Z. apply Hg. cbn; auto.
      - injection P as <- <-. cbn [queue pat]. split; [|split; [intros z Z; apply Hg; cbn; auto|exact I]]. intros z Z. apply in_app_or in Z. destruct Z as [Z|[<-|[]]]; [now apply IL|].
        split; [exact Ag|apply Hg; cbn; auto]. }
    destruct K as (K1 & K2 & K3). split; [exact K1|]. intros h H. apply in_app_or in H. destruct H as [H|[<-|H]]; [|now split|]; apply IG; rewrite E; apply in_or_app; [now left|right; now right].
Qed.
Lemma kept_inv xss q x0 : from xss x0 -> good x0 = true -> (forall x, same x x = true) -> let st := run (start xss) q in
  (exists y, In y (fst st) /\ same y x0 = true) \/ (exists g, In g (snd st) /\ In x0 (holds_of g)).
Proof.
  intros F G0 R. induction q as [|i q IH] using rev_ind.
  - right. destruct F as (xs & X & I). exists (MkPu xs Ready). split; [apply in_map_iff; now exists xs|exact I].
  - cbv zeta in *. rewrite rrun_snoc. set (st := run (start xss) q) in *.
    destruct (step_split st i) as [(l1 & g & l2 & l' & g' & E & _ & P & ->)|H]; [|now rewrite H]. cbn [fst snd].
    assert (Inc : forall y, In y (fst st) -> In y l').
    { unfold pu_step in P. destruct (pat g) as [|x k|x]; [destruct (queue g)|destruct (nth_error (fst st) k) as [y|]; [destruct (same y x)|]|]; injection P as <- <-; auto.
      intros y Y. apply in_or_app. now left. }
    destruct IH as [(y & Y & S)|(h & H & I)]; [left; exists y; auto|].
    rewrite E in H. apply in_app_or in H. assert (Other : In h l1 \/ In h l2 -> (exists g0, In g0 (l1 ++ g' :: l2) /\ In x0 (holds_of g0))).
    { intros [X|X]; exists h; (split; [|exact I]); apply in_or_app; [now left|right; now right]. }
    destruct H as [H|[<-|H]]; [right; auto| |right; auto].
    assert (Here : In x0 (holds_of g') -> exists g0, In g0 (l1 ++ g' :: l2) /\ In x0 (holds_of g0)) by (intros X; exists g'; split; [apply in_elt|exact X]).
    unfold pu_step in P. destruct g as [qu w]. unfold holds_of in I. cbn [queue pat] in *. destruct w as [|x k|x].
    + destruct qu as [|x qu]; injection P as <- <-; [destruct I|]. right. apply Here. exact I.
    + destruct (nth_error (fst st) k) as [y|] eqn:N; [destruct (same y x) eqn:S|]; injection P as <- <-.
      * destruct I as [->|I]; [left; exists y; split; [eapply nth_error_In; exact N|exact S]|right; apply Here; exact I].
      * right. apply Here. exact I.
      * right. apply Here. unfold holds_of. cbn [pat queue]. destruct I as [->|I]; [rewrite G0; now left|destruct (good x); [now right|exact I]].
    + injection P as <- <-. destruct I as [->|I]; [left; exists x0; split; [apply in_or_app; right; now left|apply R]|right; apply Here; exact I].
Qed.
(* Whatever the schedule: every member was pushed and meets the policy's other demands, and
   when all calls have returned every such value that was pushed has a member that is the same. *)
Theorem C146_nothing_lost : (forall x, same x x = true) -> forall xss q, let st := run (start xss) q in
  (forall x, In x (fst st) -> good x = true /\ exists xs, In xs xss /\ In x xs) /\
  (finished st -> forall xs x, In xs xss -> In x xs -> good x = true -> exists y, In y (fst st) /\ same y x = true).
Proof.
  intros R xss q st. destruct (source_inv xss q) as [S _]. split; [exact S|]. intros F xs x X I G.
  destruct (kept_inv xss q x (ex_intro _ xs (conj X I)) G R) as [H|(g & Hg & H)]; [exact H|].
  destruct (F g Hg) as [Q P]. unfold holds_of in H. rewrite P, Q in H. destruct H.
Qed.

(* ---- by turns ---- *)
Definition turn_ok (st : rstate A) : Prop :=
  unique same (fst st) /\ forall g, In g (snd st) -> match pat g with
    | Ready => True
    | Looking x i => forall j y, j < i -> nth_error (fst st) j = Some y -> same y x = false
    | Appending x => forall y, In y (fst st) -> same y x = false end.
(* Goroutines that take turns never make two members that are the same. *)
Theorem C146_by_turns : forall xss q, by_turns same good xss q -> unique same (fst (run (start xss) q)).
Proof.
  intros xss q H. assert (V : turn_ok (run (start xss) q)); [|apply V]. revert H. induction q as [|i q IH] using rev_ind; intros H.
  - split; [constructor|]. intros g G. cbn in G. apply in_map_iff in G. destruct G as (xs & <- & _). exact I.
  - assert (H0 : by_turns same good xss q) by (intros a b E; apply (H a (b ++ [i])); subst q; apply app_assoc_reverse).
    assert (T : forall k g j h, nth_error (snd (run (start xss) q)) k = Some g -> pat g <> Ready -> nth_error (snd (run (start xss) q)) j = Some h -> pat h <> Ready -> k = j)
      by (intros k g j h; apply (H q [i] eq_refl)).
    destruct (IH H0) as [U V]. clear IH H H0. rewrite rrun_snoc. set (st := run (start xss) q) in *.
    destruct (step_split st i) as [(l1 & g & l2 & l' & g' & E & _ & P & ->)|H]; [|now rewrite H]. unfold turn_ok. cbn [fst snd].
    assert (Gg : In g (snd st)) by (rewrite E; apply in_elt). assert (Vg := V g Gg).
    assert (Same : l' = fst st -> forall h, In h l1 \/ In h l2 -> match pat h with
      | Ready => True | Looking x i => forall j y, j < i -> nth_error l' j = Some y -> same y x = false | Appending x => forall y, In y l' -> same y x = false end).
    { intros -> h [X|X]; apply V; rewrite E; apply in_or_app; [now left|right; now right]. }
    assert (Fin : (forall h, In h l1 \/ In h l2 -> match pat h with
      | Ready => True | Looking x i => forall j y, j < i -> nth_error l' j = Some y -> same y x = false | Appending x => forall y, In y l' -> same y x = false end) ->
      (match pat g' with Ready => True | Looking x i => forall j y, j < i -> nth_error l' j = Some y -> same y x = false | Appending x => forall y, In y l' -> same y x = false end) ->
      forall h, In h (l1 ++ g' :: l2) -> match pat h with
      | Ready => True | Looking x i => forall j y, j < i -> nth_error l' j = Some y -> same y x = false | Appending x => forall y, In y l' -> same y x = false end).
    { intros X Y h Hh. apply in_app_or in Hh. destruct Hh as [Z|[<-|Z]]; [apply X; now left|exact Y|apply X; now right]. }
    unfold pu_step in P. destruct (pat g) as [|x k|x] eqn:W.
    + destruct (queue g) as [|x qu]; injection P as <- <-; (split; [exact U|]); (apply Fin; [now apply Same|]).
      * now rewrite W.
      * cbn. intros j y L. lia.
    + destruct (nth_error (fst st) k) as [y|] eqn:N; [destruct (same y x) eqn:S|]; injection P as <- <-; (split; [exact U|]); (apply Fin; [now apply Same|]); cbn [pat].
      * exact I.
      * intros j z L Z. destruct (Nat.eq_dec j k) as [->|D]; [congruence|]. apply (Vg j z); [lia|exact Z].
      * destruct (good x); [|exact I]. intros z Z. apply In_nth_error in Z. destruct Z as (j & Z). apply (Vg j z); [|exact Z].
        apply nth_error_None in N. assert (j < List.length (fst st)) by (apply nth_error_Some; congruence). lia.
    + injection P as <- <-. split; [constructor; [exact U|exact Vg]|]. apply Fin; [|exact I].
      assert (O : forall h, In h l1 \/ In h l2 -> pat h = Ready).
      { intros h Hh. destruct (pat h) eqn:Ph; [reflexivity| |]; exfalso.
        all: assert (K : exists k, nth_error (snd st) k = Some h /\ k <> List.length l1) by
          (rewrite E; destruct Hh as [Hh|Hh]; apply In_nth_error in Hh; destruct Hh as (k & Hk);
           [exists k; assert (L : k < List.length l1) by (apply nth_error_Some; congruence); split; [now rewrite nth_error_app1|lia]
           |exists (List.length l1 + S k); split; [rewrite nth_error_app2 by lia; now replace (List.length l1 + S k - List.length l1) with (S k) by lia|lia]]).
        all: destruct K as (k & Hk & D); apply D; apply (T k h (List.length l1) g Hk); [congruence| |congruence].
        all: rewrite E, nth_error_app2 by lia; now rewrite Nat.sub_diag. }
      intros h Hh. now rewrite (O h Hh).
Qed.

(* ---- how many copies ---- *)
Section Copies.
Hypothesis Sym : forall x y, same x y = same y x.
Hypothesis Trans : forall x y z, same x y = true -> same y z = true -> same x z = true.
Variable x0 : A.
Definition cls (y : A) : bool := same y x0.
Definition has (l : list A) : bool := existsb cls l.
(* can this goroutine still add a copy *)
Definition may (l : list A) (g : pusher A) : bool :=
  let later := has (queue g) && negb (has l) in
  match pat g with
  | Ready => later
  | Looking x i => if cls x then negb (has (skipn i l)) else later
  | Appending x => if cls x then true else later
  end.
Definition potential (st : rstate A) : nat := copies same x0 (fst st) + List.length (filter (may (fst st)) (snd st)).
Definition look_ok (st : rstate A) : Prop := forall g, In g (snd st) -> match pat g with
    | Looking x i => i <= List.length (fst st) /\ forall j y, j < i -> nth_error (fst st) j = Some y -> same y x = false | _ => True end.
Lemma cls_same x y : cls x = true -> cls y = same y x.
Proof.
  unfold cls. intros H. destruct (same y x) eqn:E; [exact (Trans _ _ _ E H)|]. destruct (same y x0) eqn:F; [|reflexivity].
  rewrite <- E. symmetry. apply (Trans _ _ _ F). now rewrite Sym.
Qed.
Lemma has_app a b : has (a ++ b) = has a || has b.
Proof. apply existsb_app. Qed.
Lemma filter_le {B} (f g : B -> bool) l : (forall x, In x l -> f x = true -> g x = true) -> List.length (filter f l) <= List.length (filter g l).
Proof.
  induction l as [|x l IH]; intros H; [auto|]. cbn. assert (IH' := IH (fun y Y => H y (or_intror Y))). specialize (H x (or_introl eq_refl)).
  destruct (f x); [rewrite H by reflexivity; cbn; lia|destruct (g x); cbn; lia].
Qed.
Lemma may_grow l x g : match pat g with Looking _ i => i <= List.length l | _ => True end -> may (l ++ [x]) g = true -> may l g = true.
Proof.
  unfold may. intros K. rewrite has_app. destruct (pat g) as [|y i|y].
  - destruct (has (queue g)), (has l); cbn; auto.
  - destruct (cls y); [|destruct (has (queue g)), (has l); cbn; auto]. rewrite skipn_app, has_app. destruct (has (skipn i l)); cbn; auto.
  - destruct (cls y); [auto|]. destruct (has (queue g)), (has l); cbn; auto.
Qed.
Lemma nth_skipn (l : list A) i y : nth_error l i = Some y -> skipn i l = y :: skipn (S i) l.
Proof. revert i. induction l as [|a l IH]; intros [|i] H; try discriminate; cbn in *; [now injection H as ->|now apply IH]. Qed.
Lemma has_skipn (l : list A) i x : cls x = true -> (forall j y, j < i -> nth_error l j = Some y -> same y x = false) -> has (skipn i l) = has l.
Proof.
  intros C. revert i. induction l as [|a l IH]; intros [|i] H; try reflexivity. cbn [skipn]. rewrite IH.
  - cbn [has existsb]. assert (X := H 0 a ltac:(lia) eq_refl). now rewrite (cls_same x a C), X.
  - intros j y L N. apply (H (S j) y); [lia|exact N].
Qed.
Lemma look_step st i : look_ok st -> look_ok (step st i).
Proof.
  intros V. destruct (step_split st i) as [(l1 & g & l2 & l' & g' & E & _ & P & ->)|H]; [|now rewrite H]. unfold look_ok. cbn [fst snd].
  assert (Gg : In g (snd st)) by (rewrite E; apply in_elt). assert (Vg := V g Gg).
  assert (Ex : exists t, l' = fst st ++ t).
  { unfold pu_step in P. destruct (pat g) as [|x k|x]; [destruct (queue g)|destruct (nth_error (fst st) k) as [y|]; [destruct (same y x)|]|]; injection P as <- <-; try (exists []; now rewrite app_nil_r); now exists [x]. }
  intros h Hh. apply in_app_or in Hh. assert (Old : In h l1 \/ In h l2 -> match pat h with
    | Looking x i => i <= List.length l' /\ forall j y, j < i -> nth_error l' j = Some y -> same y x = false | _ => True end).
  { intros X. assert (Vh : match pat h with Looking x i => i <= List.length (fst st) /\ forall j y, j < i -> nth_error (fst st) j = Some y -> same y x = false | _ => True end)
      by (apply V; rewrite E; apply in_or_app; destruct X; [now left|right; now right]).
    destruct (pat h) as [|x k|x]; auto. destruct Vh as [K Vh]. destruct Ex as [t ->]. split; [rewrite app_length; lia|]. intros j y L N. apply (Vh j y L). rewrite nth_error_app1 in N by lia. exact N. }
  destruct Hh as [Hh|[<-|Hh]]; [apply Old; now left| |apply Old; now right]. unfold pu_step in P. destruct (pat g) as [|x k|x] eqn:W.
  - destruct (queue g) as [|x qu]; injection P as <- <-; [now rewrite W|]. cbn. split; [lia|]. intros j y L. lia.
  - destruct Vg as [K Vg]. destruct (nth_error (fst st) k) as [y|] eqn:N; [destruct (same y x) eqn:S|]; injection P as <- <-; cbn [pat]; try exact I.
    + split; [assert (k < List.length (fst st)) by (apply nth_error_Some; congruence); lia|].
      intros j z L Z. destruct (Nat.eq_dec j k) as [->|D]; [congruence|]. apply (Vg j z); [lia|exact Z].
    + now destruct (good x).
  - injection P as <- <-. exact I.
Qed.
Lemma filter_mid {B} (f : B -> bool) l1 g l2 : List.length (filter f (l1 ++ g :: l2)) = List.length (filter f l1) + (if f g then 1 else 0) + List.length (filter f l2).
Proof. rewrite filter_app, app_length. cbn. destruct (f g); cbn; lia. Qed.
Lemma potential_step st i : look_ok st -> potential (step st i) <= potential st.
Proof.
  intros V. destruct (step_split st i) as [(l1 & g & l2 & l' & g' & E & _ & P & ->)|H]; [|now rewrite H]. unfold potential. cbn [fst snd]. rewrite E, !filter_mid.
  assert (Gg : In g (snd st)) by (rewrite E; apply in_elt). assert (Vg := V g Gg).
  unfold pu_step in P. destruct g as [qu w]. cbn [queue pat] in *. destruct w as [|x k|x].
  - destruct qu as [|x qu]; injection P as <- <-; [lia|].
    assert (M : may (fst st) (MkPu qu (Looking x 0)) = true -> may (fst st) (MkPu (x :: qu) Ready) = true).
    { unfold may. cbn [queue pat has existsb]. rewrite skipn_O. destruct (cls x); cbn; auto. }
    destruct (may (fst st) (MkPu qu (Looking x 0))); [rewrite M by reflexivity; lia|lia].
  - destruct Vg as [K Vg]. destruct (nth_error (fst st) k) as [y|] eqn:N; [destruct (same y x) eqn:Sy|]; injection P as <- <-.
    + assert (M : may (fst st) (MkPu qu Ready) = true -> may (fst st) (MkPu qu (Looking x k)) = true).
      { unfold may. cbn [queue pat]. destruct (cls x) eqn:C; [|auto]. rewrite (has_skipn _ _ x C Vg). now destruct (has qu), (has (fst st)). }
      destruct (may (fst st) (MkPu qu Ready)); [rewrite M by reflexivity; lia|lia].
    + assert (M : may (fst st) (MkPu qu (Looking x (S k))) = true -> may (fst st) (MkPu qu (Looking x k)) = true).
      { unfold may. cbn [queue pat]. destruct (cls x) eqn:C; [|auto]. rewrite (nth_skipn _ _ _ N). cbn [has existsb]. rewrite (cls_same x y C), Sy. auto. }
      destruct (may (fst st) (MkPu qu (Looking x (S k)))); [rewrite M by reflexivity; lia|lia].
    + assert (M : may (fst st) (MkPu qu (if good x then Appending x else Ready)) = true -> may (fst st) (MkPu qu (Looking x k)) = true).
      { unfold may. cbn [queue pat]. destruct (cls x) eqn:C.
        - rewrite skipn_all2 by now apply nth_error_None. auto.
        - destruct (good x); [now rewrite C|auto]. }
      destruct (may (fst st) (MkPu qu (if good x then Appending x else Ready))); [rewrite M by reflexivity; lia|lia].
  - injection P as <- <-.
    assert (L1 : List.length (filter (may (fst st ++ [x])) l1) <= List.length (filter (may (fst st)) l1)).
    { apply filter_le. intros h Hh M. apply (may_grow _ x); [|exact M]. assert (Vh := V h ltac:(rewrite E; apply in_or_app; now left)). destruct (pat h); [exact I|apply Vh|exact I]. }
    assert (L2 : List.length (filter (may (fst st ++ [x])) l2) <= List.length (filter (may (fst st)) l2)).
    { apply filter_le. intros h Hh M. apply (may_grow _ x); [|exact M]. assert (Vh := V h ltac:(rewrite E; apply in_or_app; right; now right)). destruct (pat h); [exact I|apply Vh|exact I]. }
    assert (Cp : copies same x0 (fst st ++ [x]) = copies same x0 (fst st) + if cls x then 1 else 0).
    { unfold copies. rewrite filter_app, app_length. cbn [filter]. unfold cls. now destruct (same x x0). }
    assert (M1 : may (fst st ++ [x]) (MkPu qu Ready) = if cls x then false else has qu && negb (has (fst st))).
    { unfold may. cbn [queue pat]. rewrite has_app. cbn [has existsb]. destruct (cls x); rewrite ?orb_true_r, ?orb_false_r; [apply andb_false_r|reflexivity]. }
    assert (M2 : may (fst st) (MkPu qu (Appending x)) = if cls x then true else has qu && negb (has (fst st))) by reflexivity.
    rewrite Cp, M1, M2. destruct (cls x); [lia|]. destruct (has qu && negb (has (fst st))); lia.
Qed.
End Copies.
(* Whatever the schedule, a list has at most as many copies of a value as goroutines push it. *)
Theorem C146_exact : (forall x y, same x y = same y x) -> (forall x y z, same x y = true -> same y z = true -> same x z = true) ->
  forall xss q x, copies same x (fst (run (start xss) q)) <= pushing same x xss.
Proof.
  intros S T xss q x. assert (V : look_ok (run (start xss) q) /\ potential x (run (start xss) q) <= pushing same x xss).
  { induction q as [|i q [I1 I2]] using rev_ind.
    - split; [intros g G; cbn in G; apply in_map_iff in G; destruct G as (xs & <- & _); exact I|]. unfold potential, pushing. cbn [race_run fold_left race_start fst snd copies filter List.length Nat.add].
      clear. induction xss as [|xs xss IH]; [auto|]. cbn [map filter]. unfold may at 1. cbn [pat queue]. cbn [has existsb negb]. rewrite andb_true_r.
      fold (has x xs). change (existsb (fun y => same y x) xs) with (has x xs). destruct (has x xs); cbn; lia.
    - rewrite rrun_snoc. split; [now apply look_step|]. pose proof (potential_step S T x _ i I1). lia. }
  destruct V as [_ V]. unfold potential in V. lia.
Qed.
(* Every number of copies up to that is possible. *)
Lemma look_all n x : good x = true -> forall pre, exists q,
  run ([], pre ++ repeat (MkPu [x] Ready) n) q = ([], pre ++ repeat (MkPu [] (Appending x)) n).
Proof.
  intros G. induction n as [|n IH]; intros pre; [exists []; reflexivity|].
  destruct (IH (pre ++ [MkPu [] (Appending x)])) as (q & Q). exists ([List.length pre; List.length pre] ++ q).
  unfold race_run in *. rewrite fold_left_app. cbn [fold_left repeat].
  assert (S1 : forall l g, step (l, pre ++ g :: repeat (MkPu [x] Ready) n) (List.length pre) = let '(l', g') := pu_step A same good l g in (l', pre ++ g' :: repeat (MkPu [x] Ready) n)).
  { intros l g. unfold race_step. cbn [fst snd]. rewrite nth_error_app2, Nat.sub_diag by lia. cbn [nth_error]. destruct (pu_step A same good l g). now rewrite wr_mid'. }
  rewrite S1. cbn [pu_step pat queue]. rewrite S1. cbn [pu_step pat queue nth_error]. rewrite G. rewrite <- !app_assoc in Q. exact Q.
Qed.
Lemma append_all n x : forall l pre, exists q,
  run (l, pre ++ repeat (MkPu [] (Appending x)) n) q = (l ++ repeat x n, pre ++ repeat (MkPu [] Ready) n).
Proof.
  induction n as [|n IH]; intros l pre; [exists []; cbn; now rewrite !app_nil_r|].
  destruct (IH (l ++ [x]) (pre ++ [MkPu [] Ready])) as (q & Q). exists ([List.length pre] ++ q).
  unfold race_run in *. rewrite fold_left_app. cbn [fold_left repeat].
  assert (S1 : step (l, pre ++ MkPu [] (Appending x) :: repeat (MkPu [] (Appending x)) n) (List.length pre) = (l ++ [x], pre ++ MkPu [] Ready :: repeat (MkPu [] (Appending x)) n)).
  { unfold race_step. cbn [fst snd]. rewrite nth_error_app2, Nat.sub_diag by lia. cbn [nth_error pu_step pat queue]. now rewrite wr_mid'. }
  rewrite S1. rewrite <- !app_assoc in Q. exact Q.
Qed.
Theorem C146_reached : forall x n, good x = true ->
  exists q, let st := run (start (repeat [x] n)) q in fst st = repeat x n /\ finished st.
Proof.
  intros x n G. destruct (look_all n x G []) as (q1 & Q1). destruct (append_all n x [] []) as (q2 & Q2). exists (q1 ++ q2). unfold race_run in *. rewrite fold_left_app.
  assert (E : start (repeat [x] n) = ([], repeat (MkPu [x] Ready) n)) by (unfold race_start; f_equal; clear; induction n; cbn; congruence).
  rewrite E. cbn [app] in Q1, Q2. rewrite Q1, Q2. cbv zeta. cbn [fst snd]. split; [reflexivity|]. intros g H. apply repeat_spec in H. now subst g.
Qed.
(* False: two goroutines push the same value, one each. *)
Theorem C146_refuted : forall x, good x = true -> same x x = true ->
  ~ (forall xss q, unique same (fst (run (start xss) q))) /\
  exists q, fst (run (start [[x]; [x]]) q) = [x; x].
Proof.
  intros x G S. destruct (C146_reached x 2 G) as (q & E & _). cbn [repeat] in E. split; [|now exists q]. intros H. specialize (H [[x]; [x]] q). rewrite E in H.
  inversion H as [|l y U D E1]. assert (L : l = [x] /\ y = x) by (apply app_inj_tail with (x := l) (y := [x]) in E1; exact E1). destruct L as [-> ->]. specialize (D x (or_introl eq_refl)). congruence.
Qed.

(* ---- one goroutine ---- *)
Lemma alone_inv xs q : let st := run (start [xs]) q in
  exists done g, snd st = [g] /\ xs = done ++ holds_of g /\ fst st = fold_left (push1 (policy_of A same good)) done [] /\
    match pat g with
    | Ready => True
    | Looking x i => i <= List.length (fst st) /\ forall j y, j < i -> nth_error (fst st) j = Some y -> same y x = false
    | Appending x => policy_of A same good (fst st) x = true
    end.
Proof.
  induction q as [|k q IH] using rev_ind.
  - exists [], (MkPu xs Ready). repeat split.
  - cbv zeta in *. rewrite rrun_snoc. set (st := run (start [xs]) q) in *. destruct IH as (dn & g & Sn & X & F & W).
    destruct k as [|k]; [|exists dn, g; unfold race_step; rewrite Sn; cbn [nth_error]; destruct k; auto].
    unfold race_step. rewrite Sn. cbn [nth_error]. unfold pu_step. destruct g as [qu w]. unfold holds_of in X. cbn [queue pat] in *. destruct w as [|x i|x].
    + destruct qu as [|x qu]; cbn [wr fst snd].
      * exists dn, (MkPu [] Ready). auto.
      * exists dn, (MkPu qu (Looking x 0)). repeat split; auto; cbn; lia.
    + destruct W as [K W]. assert (Ex : existsb (fun y => same y x) (fst st) = true -> exists y, nth_error (fst st) i = Some y /\ same y x = true \/ i < List.length (fst st)).
      { intros Y. apply existsb_exists in Y. destruct Y as (y & Y & Z). apply In_nth_error in Y. destruct Y as (j & Y). exists y.
        destruct (Nat.lt_ge_cases j i) as [L|L]; [rewrite (W j y L Y) in Z; discriminate|]. right. assert (j < List.length (fst st)) by (apply nth_error_Some; congruence). lia. }
      destruct (nth_error (fst st) i) as [y|] eqn:N; [destruct (same y x) eqn:Sy|]; cbn [wr fst snd].
      * exists (dn ++ [x]), (MkPu qu Ready). split; [reflexivity|]. split; [rewrite X; now rewrite <- app_assoc|]. split; [|exact I].
        rewrite fold_left_app. cbn [fold_left]. rewrite <- F. unfold push1, policy_of.
        replace (existsb (fun y => same y x) (fst st)) with true; [reflexivity|]. symmetry. apply existsb_exists. exists y. split; [eapply nth_error_In; exact N|exact Sy].
      * exists dn, (MkPu qu (Looking x (S i))). split; [reflexivity|]. split; [exact X|]. split; [exact F|]. cbn [pat].
        split; [assert (i < List.length (fst st)) by (apply nth_error_Some; congruence); lia|]. intros j z L Z. destruct (Nat.eq_dec j i) as [->|D]; [congruence|]. apply (W j z); [lia|exact Z].
      * assert (Ne : existsb (fun y => same y x) (fst st) = false).
        { destruct (existsb (fun y => same y x) (fst st)) eqn:Y; [|reflexivity]. destruct (Ex eq_refl) as (y & [[Y1 _]|Y1]); [discriminate|]. apply nth_error_None in N. lia. }
        destruct (good x) eqn:G.
        -- exists dn, (MkPu qu (Appending x)). split; [reflexivity|]. split; [exact X|]. split; [exact F|]. cbn [pat]. unfold policy_of. now rewrite Ne, G.
        -- exists (dn ++ [x]), (MkPu qu Ready). split; [reflexivity|]. split; [rewrite X; now rewrite <- app_assoc|]. split; [|exact I].
           rewrite fold_left_app. cbn [fold_left]. rewrite <- F. unfold push1, policy_of. now rewrite Ne, G.
    + cbn [wr fst snd]. exists (dn ++ [x]), (MkPu qu Ready). split; [reflexivity|]. split; [rewrite X; now rewrite <- app_assoc|]. split; [|exact I].
      rewrite fold_left_app. cbn [fold_left]. rewrite <- F. unfold push1. now rewrite W.
Qed.
(* One goroutine on its own gets what the one-step model of Push says. *)
Theorem C146_alone : forall xs q, finished (run (start [xs]) q) ->
  fst (run (start [xs]) q) = fold_left (push1 (policy_of A same good)) xs [].
Proof.
  intros xs q F. destruct (alone_inv xs q) as (dn & g & S & X & E & _). destruct (F g) as [Q P]; [rewrite S; now left|].
  unfold holds_of in X. rewrite P, Q, app_nil_r in X. now subst dn.
Qed.

(* ---- every call can come to its end ---- *)
Lemma step_at l pre g post : step (l, pre ++ g :: post) (List.length pre) = let '(l', g') := pu_step A same good l g in (l', pre ++ g' :: post).
Proof. unfold race_step. cbn [fst snd]. rewrite nth_error_app2, Nat.sub_diag by lia. cbn [nth_error]. destruct (pu_step A same good l g). now rewrite wr_mid'. Qed.
Lemma run_cons st i q : run st (i :: q) = run (step st i) q.
Proof. reflexivity. Qed.
Lemma run_app st q r : run st (q ++ r) = run (run st q) r.
Proof. apply fold_left_app. Qed.
Lemma call_ends pre post qu x k : forall l i, List.length l <= i + k -> exists q l', run (l, pre ++ MkPu qu (Looking x i) :: post) q = (l', pre ++ MkPu qu Ready :: post).
Proof.
  induction k as [|k IH]; intros l i L.
  - assert (N : nth_error l i = None) by (apply nth_error_None; lia). destruct (good x) eqn:G.
    + exists [List.length pre; List.length pre], (l ++ [x]). rewrite run_cons, step_at. unfold pu_step. cbn [pat queue]. rewrite N, G. rewrite run_cons, step_at. reflexivity.
    + exists [List.length pre], l. rewrite run_cons, step_at. unfold pu_step. cbn [pat queue]. rewrite N, G. reflexivity.
  - destruct (nth_error l i) as [y|] eqn:N.
    + destruct (same y x) eqn:S.
      * exists [List.length pre], l. rewrite run_cons, step_at. unfold pu_step. cbn [pat queue]. rewrite N, S. reflexivity.
      * destruct (IH l (Datatypes.S i)) as (q & l' & E); [lia|]. exists (List.length pre :: q), l'. rewrite run_cons, step_at. unfold pu_step. cbn [pat queue]. rewrite N, S. exact E.
    + apply nth_error_None in N. destruct (IH l i) as (q & l' & E); [lia|]. now exists q, l'.
Qed.
Lemma queue_ends pre post qu : forall l, exists q l', run (l, pre ++ MkPu qu Ready :: post) q = (l', pre ++ MkPu [] Ready :: post).
Proof.
  induction qu as [|x qu IH]; intros l; [now exists [], l|].
  destruct (call_ends pre post qu x (List.length l) l 0 ltac:(lia)) as (q1 & l1 & E1). destruct (IH l1) as (q2 & l2 & E2).
  exists (List.length pre :: q1 ++ q2), l2. rewrite run_cons, step_at. cbn [pu_step pat queue]. now rewrite run_app, E1.
Qed.
Lemma one_ends pre post g l : exists q l', run (l, pre ++ g :: post) q = (l', pre ++ MkPu [] Ready :: post).
Proof.
  destruct g as [qu [|x i|x]].
  - apply queue_ends.
  - destruct (call_ends pre post qu x (List.length l) l i ltac:(lia)) as (q1 & l1 & E1). destruct (queue_ends pre post qu l1) as (q2 & l2 & E2).
    exists (q1 ++ q2), l2. now rewrite run_app, E1.
  - destruct (queue_ends pre post qu (l ++ [x])) as (q2 & l2 & E2). exists (List.length pre :: q2), l2. now rewrite run_cons, step_at.
Qed.
Lemma all_end post : forall pre l, (forall g, In g pre -> queue g = [] /\ pat g = Ready) -> exists q, finished (run (l, pre ++ post) q).
Proof.
  induction post as [|g post IH]; intros pre l H.
  - exists []. intros g G. cbn [race_run fold_left snd] in G. rewrite app_nil_r in G. auto.
  - destruct (one_ends pre post g l) as (q1 & l1 & E1). destruct (IH (pre ++ [MkPu [] Ready]) l1) as (q2 & F).
    + intros h Hh. apply in_app_or in Hh. destruct Hh as [Hh|[<-|[]]]; auto.
    + exists (q1 ++ q2). rewrite run_app, E1. rewrite <- app_assoc in F. exact F.
Qed.
(* However the calls have been interleaved so far, they can all return. *)
Theorem C146_returns : forall xss q, exists q', finished (run (start xss) (q ++ q')).
Proof.
  intros xss q. destruct (run (start xss) q) as [l gs] eqn:E. destruct (all_end gs [] l) as (q' & F); [intros g []|]. exists q'. now rewrite run_app, E.
Qed.
End Race.

(* The lists of the package this speaks of: the policies of the model compare and test like
   this. *)
Theorem C146_kinds :
  (forall eqf bad l x, dn_policy eqf bad l x = policy_of _ (fun y x => eqf (dmember_string bad y) (dmember_string bad x)) (fun _ => true) l x) /\
  (forall l x, afo_policy l x = policy_of _ (fun y x => String.eqb (af_string y) (af_string x)) af_valid l x) /\
  (forall l x, afos_policy l x = policy_of _ (fun y x => String.eqb (afo_string y) (afo_string x)) (fun o => (0 <? List.length (afo_mem o))%nat) l x) /\
  (forall W l x, pbrs_policy W l x = policy_of _ (fun y x => e_eqf (w_env W) (pbr_string W y) (pbr_string W x)) pbr_valid l x) /\
  (forall W l x, inss_policy W l x = policy_of _ (fun y x => e_eqf (w_env W) (ins_string W y) (condenseWHSP (ins_string W x))) ins_valid l x).
Proof.
  repeat split; intros; unfold policy_of, dn_policy, dn_contains, afo_policy, afo_contains, afos_policy, afos_contains, pbrs_policy, pbrs_contains, inss_policy, inss_contains;
    try (now rewrite andb_true_r); match goal with |- (if ?b then _ else _) = _ => now destruct b end.
Qed.
(* In particular for lists of names, where upper and lower case are the same, and for the
   filters of an operation. *)
Theorem C146_names : forall bad xss q m,
  let same := fun y x => eqfold (dmember_string bad y) (dmember_string bad x) in
  copies same m (fst (race_run _ same (fun _ => true) (race_start _ xss) q)) <= pushing same m xss.
Proof.
  intros bad xss q m same. apply C146_exact; unfold same, eqfold; intros *; [apply String.eqb_sym|]. intros E F. apply String.eqb_eq in E, F. apply String.eqb_eq. congruence.
Qed.
Theorem C146_filters : forall xss q f,
  let same := fun y x => String.eqb (af_string y) (af_string x) in
  copies same f (fst (race_run _ same af_valid (race_start _ xss) q)) <= pushing same f xss.
Proof.
  intros xss q m same. apply C146_exact; unfold same; intros *; [apply String.eqb_sym|]. intros E F. apply String.eqb_eq in E, F. apply String.eqb_eq. congruence.
Qed.
Open Scope string_scope.
Example C146_witness :
  let same := (fun y x => eqfold (dmember_string badBDN y) (dmember_string badBDN x)) in
  let n s := MDN (UDN s) in
  by_turns same (fun _ => true) [[n "cn=a"]; [n "cn=b"]] [0; 0; 0; 1; 1; 1] /\
  fst (race_run _ same (fun _ => true) (race_start _ [[n "cn=a"]; [n "CN=A"; n "cn=b"]]) [0; 1; 0; 1; 1; 0; 1; 1; 1; 1; 1]) = [n "CN=A"; n "cn=a"; n "cn=b"] /\
  copies same (n "cn=a") [n "CN=A"; n "cn=a"; n "cn=b"] = 2 /\ pushing same (n "cn=a") [[n "cn=a"]; [n "CN=A"; n "cn=b"]] = 2.
Proof.
  cbv zeta. split; [|split; [vm_compute; reflexivity|split; vm_compute; reflexivity]].
  intros a b E i j gi gj Gi Wi Gj Wj.
  assert (P : a = firstn (List.length a) [0; 0; 0; 1; 1; 1]) by (rewrite E, firstn_app, firstn_all, Nat.sub_diag, firstn_O; now rewrite app_nil_r).
  assert (L : List.length a <= 6) by (apply (f_equal (@List.length nat)) in E; rewrite app_length in E; cbn in E; lia).
  revert P L. generalize (List.length a). intros n -> L. clear E.
  do 7 (destruct n as [|n]; [
    destruct i as [|[|i]]; destruct j as [|[|j]]; vm_compute in Gi, Gj; try reflexivity; try discriminate; try (destruct i; discriminate Gi); try (destruct j; discriminate Gj);
      injection Gi as <-; injection Gj as <-; vm_compute in Wi, Wj; congruence|]). lia.
Qed.
Print Assumptions C146_nothing_lost.
Print Assumptions C146_by_turns.
Print Assumptions C146_exact.
Print Assumptions C146_reached.
Print Assumptions C146_refuted.
Print Assumptions C146_alone.
Print Assumptions C146_returns.
Print Assumptions C146_kinds.
Print Assumptions C146_names.
Print Assumptions C146_filters.
