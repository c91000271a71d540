(* C147: goroutines that give labels to one instruction. *)
From Coq Require Import String List PeanoNat Bool Lia.
From Verif Require Import GoStr MHeap SAci MOnce SOnce.
Import ListNotations.
Open Scope string_scope.
Open Scope list_scope.

Lemma owr_mid {A} (l1 : list A) g g' l2 : wr (l1 ++ g :: l2) (List.length l1) g' = l1 ++ g' :: l2.
Proof. induction l1 as [|a l1 IH]; [reflexivity|]. cbn. now rewrite IH. Qed.
Lemma orun_snoc st q i : once_run st (q ++ [i]) = once_step (once_run st q) i.
Proof. unfold once_run. now rewrite fold_left_app. Qed.
Lemma orun_app st q r : once_run st (q ++ r) = once_run (once_run st q) r.
Proof. apply fold_left_app. Qed.
Lemma ostep_split st i : (exists l1 g l2 ls v g', setters st = l1 ++ g :: l2 /\ i = List.length l1 /\
    se_step (labels st) (ovar st) g = (ls, v, g') /\ once_step st i = MkOs ls v (l1 ++ g' :: l2)) \/ once_step st i = st.
Proof.
  unfold once_step. destruct (nth_error (setters st) i) as [g|] eqn:E; [|now right]. left. apply nth_error_split in E. destruct E as (l1 & l2 & E & <-).
  destruct (se_step (labels st) (ovar st) g) as [[ls v] g'] eqn:P. exists l1, g, l2, ls, v, g'. rewrite E, owr_mid. auto.
Qed.
Lemma some_text x : (0 <? String.length x)%nat = negb (String.eqb x "").
Proof. now destruct x. Qed.
Lemma no_text x : (String.length x =? 0)%nat = String.eqb x "".
Proof. now destruct x. Qed.
Lemma at_same ls p x : (p < List.length ls)%nat -> label_at (wr ls p x) p = x.
Proof. revert p. induction ls as [|a ls IH]; intros [|p] H; cbn in *; try lia; [reflexivity|]. apply IH. lia. Qed.
Lemma owr_len {A} (l : list A) i x : List.length (wr l i x) = List.length l.
Proof. revert i. induction l as [|a l IH]; intros [|i]; cbn; auto. Qed.
Lemma at_new ls x p : (p < List.length ls)%nat -> label_at (ls ++ x) p = label_at ls p.
Proof. intros H. unfold label_at. now rewrite app_nth1. Qed.

Lemma in_owr {A} (l : list A) p x y : In y (wr l p x) -> In y l \/ y = x.
Proof.
  revert p. induction l as [|a l IH]; intros [|p]; cbn; auto.
  - intros [<-|H]; auto.
  - intros [<-|H]; auto. destruct (IH p H); auto.
Qed.
(* ---- where the labels come from ---- *)
Definition inside (g : setter) : list string :=
  match oat g with Off => [] | Making xs | Taking xs | Setting _ xs => xs | Writing _ x xs => x :: xs end.
Definition ahead (g : setter) : list string := inside g ++ concat (calls g).
Definition given (v : option string) (css : list (list (list string))) (x : string) : Prop :=
  v = Some x \/ exists cs, In cs css /\ In x (concat cs).
(* pointers are to instructions, and none is nil where one is needed *)
Definition sound_at (st : ostate) : Prop :=
  (forall p, ovar st = Some p -> p < List.length (labels st))%nat /\
  forall g, In g (setters st) -> match oat g with
    | Off | Making _ => True
    | Taking _ => ovar st <> None
    | Setting p _ => (p < List.length (labels st))%nat /\ ovar st <> None
    | Writing p x _ => (p < List.length (labels st))%nat /\ ovar st <> None /\ x <> "" end.
Lemma sound_step st i : sound_at st -> sound_at (once_step st i).
Proof.
  intros [V G]. destruct (ostep_split st i) as [(l1 & g & l2 & ls & v & g' & E & _ & P & ->)|H]; [|rewrite H; now split].
  assert (Gg : In g (setters st)) by (rewrite E; apply in_elt). assert (Sg := G g Gg). unfold sound_at. cbn [labels ovar setters].
  assert (Len : (List.length (labels st) <= List.length ls)%nat /\ (ovar st <> None -> v <> None)).
  { unfold se_step in P. destruct (oat g) as [|xs|xs|p [|x xs]|p x xs]; [destruct (calls g)| | | | |]; injection P as <- <- <-; rewrite ?app_length, ?owr_len; cbn; split; try lia; auto; discriminate. }
  destruct Len as [L N]. split.
  - intros p Hp. unfold se_step in P. destruct (oat g) as [|xs|xs|k [|x xs]|k x xs]; [destruct (calls g)| | | | |]; injection P as <- <- <-; rewrite ?app_length, ?owr_len; auto.
    injection Hp as <-. cbn. lia.
  - intros h Hh. apply in_app_or in Hh.
    assert (Old : In h l1 \/ In h l2 -> match oat h with
      | Off | Making _ => True | Taking _ => v <> None | Setting p _ => (p < List.length ls)%nat /\ v <> None
      | Writing p x _ => (p < List.length ls)%nat /\ v <> None /\ x <> "" end).
    { intros X. assert (Sh := G h ltac:(rewrite E; apply in_or_app; destruct X; [now left|right; now right])).
      destruct (oat h); auto; [destruct Sh|destruct Sh as (S1 & S2 & S3)]; repeat split; auto; lia. }
    destruct Hh as [Hh|[<-|Hh]]; [apply Old; now left| |apply Old; now right].
    unfold se_step in P. destruct (oat g) as [|xs|xs|k [|x xs]|k x xs] eqn:W; [destruct (calls g) as [|ys cs]| | | | |]; injection P as <- <- <-; cbn [oat]; try exact I; rewrite ?app_length, ?owr_len.
    + now rewrite W.
    + destruct (ovar st); [discriminate|exact I].
    + discriminate.
    + destruct (ovar st) as [p|] eqn:O; [split; [apply V; reflexivity|discriminate]|exact I].
    + destruct Sg as [S1 S2]. rewrite some_text. destruct (String.eqb_spec x ""); cbn [negb andb]; [now split|]. destruct (_ =? _)%nat; now repeat split.
    + destruct Sg as (S1 & S2 & _). now split.
Qed.
Lemma sound_run v css q : sound_at (once_run (once_start v css) q).
Proof.
  induction q as [|i q IH] using rev_ind.
  - split; destruct v; cbn; intros x; try discriminate; try (intros [= <-]; lia); intros H; apply in_map_iff in H; destruct H as (cs & <- & _); exact I.
  - rewrite orun_snoc. now apply sound_step.
Qed.
Lemma origin v css q : let st := once_run (once_start v css) q in
  (forall x, In x (labels st) -> x = "" \/ given v css x) /\ (forall g x, In g (setters st) -> In x (ahead g) -> given v css x).
Proof.
  induction q as [|i q IH] using rev_ind.
  - split.
    + destruct v; cbn; [intros x [<-|[]]; right; now left|intros x []].
    + intros g x G X. assert (G' : In g (map (fun cs => MkSe cs Off) css)) by (destruct v; exact G). apply in_map_iff in G'. destruct G' as (cs & <- & I). right. now exists cs.
  - cbv zeta in *. rewrite orun_snoc. assert (So := sound_run v css q). set (st := once_run (once_start v css) q) in *. destruct IH as [IL IG].
    destruct (ostep_split st i) as [(l1 & g & l2 & ls & w & g' & E & _ & P & ->)|H]; [|rewrite H; now split].
    assert (Gg : In g (setters st)) by (rewrite E; apply in_elt). assert (Hg := fun x => IG g x Gg). cbn [labels setters].
    assert (K : (forall x, In x ls -> x = "" \/ given v css x) /\ (forall x, In x (ahead g') -> given v css x)).
    { unfold se_step in P. unfold ahead, inside in *. destruct g as [cs w0]. cbn [oat calls] in *. destruct w0 as [|xs|xs|p [|x xs]|p x xs].
      - destruct cs as [|ys cs]; injection P as <- <- <-; cbn [oat calls] in *; (split; [exact IL|]); [exact Hg|]. destruct (ovar st); exact Hg.
      - injection P as <- <- <-. cbn [oat calls]. split; [|exact Hg]. intros x X. apply in_app_or in X. destruct X as [X|[<-|[]]]; [auto|now left].
      - injection P as <- <- <-. cbn [oat calls]. split; [exact IL|]. destruct (ovar st); [exact Hg|]. intros x X. apply Hg. apply in_or_app. now right.
      - injection P as <- <- <-. split; [exact IL|exact Hg].
      - injection P as <- <- <-. cbn [oat calls]. split; [exact IL|]. destruct (_ && _)%bool; [exact Hg|]. intros y Y. apply Hg. now right.
      - injection P as <- <- <-. cbn [oat calls]. split; [|intros y Y; apply Hg; now right].
        intros y Y. apply in_owr in Y. destruct Y as [Y| ->]; [auto|right; apply Hg; now left]. }
    destruct K as [K1 K2]. split; [exact K1|]. intros h x Hh X. apply in_app_or in Hh.
    destruct Hh as [Hh|[<-|Hh]]; [apply (IG h x)|now apply K2|apply (IG h x)]; try exact X; rewrite E; apply in_or_app; [now left|right; now right].
Qed.
(* The label is always one that was given, or none. *)
Theorem C147_values : forall v css q, let l := label_of (once_run (once_start v css) q) in
  l = "" \/ v = Some l \/ exists cs, In cs css /\ In l (concat cs).
Proof.
  intros v css q. cbv zeta. unfold label_of. destruct (ovar (once_run (once_start v css) q)) as [p|] eqn:O; [|now left].
  destruct (sound_run v css q) as [V _]. specialize (V p O). destruct (origin v css q) as [H _]. apply (H (label_at _ p)). apply nth_In. exact V.
Qed.

(* ---- by turns ---- *)
Definition turn_at (st : ostate) : Prop := forall g, In g (setters st) -> match oat g with
  | Off => True | Making _ => ovar st = None | Taking _ => True | Setting p _ => ovar st = Some p
  | Writing p _ _ => ovar st = Some p /\ label_at (labels st) p = "" end.
Lemma others_off v css q l1 g l2 : one_by_one v css q -> setters (once_run (once_start v css) q) = l1 ++ g :: l2 -> oat g <> Off ->
  forall h, In h l1 \/ In h l2 -> oat h = Off.
Proof.
  intros T E N h Hh. destruct (oat h) eqn:Ph; [reflexivity| | | |]; exfalso.
  all: assert (K : exists k, nth_error (setters (once_run (once_start v css) q)) k = Some h /\ k <> List.length l1) by
    (rewrite E; destruct Hh as [Hh|Hh]; apply In_nth_error in Hh; destruct Hh as (k & Hk);
     [exists k; assert (L : (k < List.length l1)%nat) by (apply nth_error_Some; congruence); split; [now rewrite nth_error_app1|lia]
     |exists (List.length l1 + S k)%nat; split; [rewrite nth_error_app2 by lia; now replace (List.length l1 + S k - List.length l1)%nat with (S k) by lia|lia]]).
  all: destruct K as (k & Hk & D); apply D; apply (T q [] (eq_sym (app_nil_r q)) k (List.length l1) h g Hk); [congruence| |exact N].
  all: rewrite E, nth_error_app2 by lia; now rewrite Nat.sub_diag.
Qed.
Lemma turn_step v css q i : one_by_one v css q -> turn_at (once_run (once_start v css) q) ->
  turn_at (once_run (once_start v css) (q ++ [i])) /\
  (label_of (once_run (once_start v css) q) <> "" -> label_of (once_run (once_start v css) (q ++ [i])) = label_of (once_run (once_start v css) q)).
Proof.
  intros T H. rewrite orun_snoc. assert (So := sound_run v css q). assert (Ot := others_off v css q). specialize (Ot) with (1 := T).
  set (st := once_run (once_start v css) q) in *.
  destruct (ostep_split st i) as [(l1 & g & l2 & ls & w & g' & E & _ & P & ->)|K]; [|now rewrite K]. specialize (Ot) with (1 := E).
  assert (Gg : In g (setters st)) by (rewrite E; apply in_elt). assert (Hg := H g Gg). destruct So as [V So]. assert (Sg := So g Gg).
  assert (Fin : ((forall h, In h l1 \/ In h l2 -> oat h = Off) \/ (ls = labels st /\ w = ovar st)) ->
    match oat g' with Off => True | Making _ => w = None | Taking _ => True | Setting p _ => w = Some p | Writing p _ _ => w = Some p /\ label_at ls p = "" end ->
    turn_at (MkOs ls w (l1 ++ g' :: l2))).
  { intros A B h Hh. cbn [setters labels ovar] in *. apply in_app_or in Hh. assert (X : In h l1 \/ In h l2 \/ h = g') by (destruct Hh as [Z|[Z|Z]]; auto).
    destruct A as [A|[-> ->]].
    - destruct X as [X|[X| ->]]; [rewrite A by now left|rewrite A by now right|exact B]; exact I.
    - destruct X as [X|[X| ->]]; [apply H|apply H|exact B]; rewrite E; apply in_or_app; [now left|right; now right]. }
  unfold label_of. cbn [ovar labels]. unfold se_step in P. destruct (oat g) as [|xs|xs|p [|x xs]|p x xs] eqn:W.
  - destruct (calls g) as [|ys cs]; injection P as <- <- <-; (split; [apply Fin; [now right|]|auto]); [now rewrite W|]. cbn. destruct (ovar st); [exact I|reflexivity].
  - injection P as <- <- <-. split; [apply Fin; [left; apply Ot; discriminate|exact I]|]. rewrite Hg. congruence.
  - injection P as <- <- <-. split; [apply Fin; [now right|]|auto]. cbn. destruct (ovar st); [reflexivity|exact I].
  - injection P as <- <- <-. split; [apply Fin; [now right|exact I]|auto].
  - injection P as <- <- <-. split; [apply Fin; [now right|]|auto]. cbn [oat]. rewrite no_text. destruct (0 <? _)%nat; cbn [andb]; [|exact Hg].
    destruct (String.eqb_spec (label_at (labels st) p) ""); [now split|exact Hg].
  - injection P as <- <- <-. destruct Hg as [H1 H2]. split; [apply Fin; [left; apply Ot; discriminate|exact H1]|]. rewrite H1. congruence.
Qed.
(* Goroutines that take turns: a label, once there is one, stays. *)
Theorem C147_by_turns : forall v css q, one_by_one v css q -> label_stays v css q.
Proof.
  intros v css q O.
  assert (T : forall a, (exists b, q = a ++ b) -> turn_at (once_run (once_start v css) a)).
  { induction a as [|i a IH] using rev_ind; intros (b & B).
    - intros g G. assert (G' : In g (map (fun cs => MkSe cs Off) css)) by (destruct v; exact G). apply in_map_iff in G'. destruct G' as (cs & <- & _). exact I.
    - rewrite <- app_assoc in B. apply turn_step; [|apply IH; eauto]. intros c d D. apply (O c (d ++ [i] ++ b)). subst a q. now rewrite <- !app_assoc. }
  intros a b. induction b as [|i b IH] using rev_ind; intros c E N; [now rewrite app_nil_r|].
  rewrite <- app_assoc in E. specialize (IH ([i] ++ c) E N). rewrite app_assoc. rewrite <- IH in N. rewrite <- IH.
  apply turn_step; [|apply T|exact N].
  - intros x y X. apply (O x (y ++ [i] ++ c)). rewrite E, app_assoc, X. now rewrite <- app_assoc.
  - exists ([i] ++ c). rewrite E. now rewrite <- app_assoc.
Qed.

(* ---- an instruction that is there already ---- *)
Definition there (st : ostate) : Prop := ovar st = Some 0%nat /\ List.length (labels st) = 1%nat /\
  forall g, In g (setters st) -> match oat g with Making _ => False | Setting p _ => p = 0%nat | Writing p x _ => p = 0%nat /\ x <> "" | _ => True end.
Lemma there_start s css : there (once_start (Some s) css).
Proof. split; [reflexivity|]. split; [reflexivity|]. intros g G. apply in_map_iff in G. destruct G as (cs & <- & _). exact I. Qed.
Lemma there_step st i : there st -> there (once_step st i).
Proof.
  intros (O & L & H). destruct (ostep_split st i) as [(l1 & g & l2 & ls & w & g' & E & _ & P & ->)|K]; [|now rewrite K].
  assert (Gg : In g (setters st)) by (rewrite E; apply in_elt). assert (Hg := H g Gg).
  assert (K : w = Some 0%nat /\ List.length ls = 1%nat /\ match oat g' with Making _ => False | Setting p _ => p = 0%nat | Writing p x _ => p = 0%nat /\ x <> "" | _ => True end).
  { unfold se_step in P. rewrite O in P. destruct (oat g) as [|xs|xs|p [|x xs]|p x xs] eqn:W; [destruct (calls g)| | | | |]; try contradiction; injection P as <- <- <-; rewrite ?owr_len; (split; [reflexivity|]); (split; [exact L|]); cbn [oat]; auto.
    - now rewrite W.
    - rewrite some_text. destruct (String.eqb_spec x ""); cbn; [exact Hg|]. destruct (_ =? _)%nat; [now split|exact Hg].
    - apply Hg. }
  destruct K as (K1 & K2 & K3). split; [exact K1|]. split; [exact K2|]. cbn [setters]. intros h Hh. apply in_app_or in Hh.
  destruct Hh as [Hh|[<-|Hh]]; [apply H|exact K3|apply H]; rewrite E; apply in_or_app; [now left|right; now right].
Qed.
Lemma there_run s css q : there (once_run (once_start (Some s) css) q).
Proof. induction q as [|i q IH] using rev_ind; [apply there_start|]. rewrite orun_snoc. now apply there_step. Qed.
Definition may_write (l : string) (g : setter) : bool :=
  match oat g with Writing _ _ _ => true | _ => String.eqb l "" && existsb (fun x => negb (String.eqb x "")) (ahead g) end.
Definition writers (st : ostate) : nat := List.length (filter (may_write (label_of st)) (setters st)).
Lemma ofilter_mid {B} (f : B -> bool) l1 g l2 : List.length (filter f (l1 ++ g :: l2)) = (List.length (filter f l1) + (if f g then 1 else 0) + List.length (filter f l2))%nat.
Proof. rewrite filter_app, app_length. cbn. destruct (f g); cbn; lia. Qed.
Lemma ofilter_le {B} (f g : B -> bool) l : (forall x, In x l -> f x = true -> g x = true) -> (List.length (filter f l) <= List.length (filter g l))%nat.
Proof.
  induction l as [|x l IH]; intros H; [auto|]. cbn. assert (IH' := IH (fun y Y => H y (or_intror Y))). specialize (H x (or_introl eq_refl)).
  destruct (f x); [rewrite H by reflexivity; cbn; lia|destruct (g x); cbn; lia].
Qed.
Lemma writers_step st i : there st ->
  ((if String.eqb (label_of st) (label_of (once_step st i)) then 0 else 1) + writers (once_step st i) <= writers st)%nat /\
  (label_of st <> "" -> label_of (once_step st i) <> "").
Proof.
  intros (O & L & H). destruct (ostep_split st i) as [(l1 & g & l2 & ls & w & g' & E & _ & P & ->)|K]; [|rewrite K, String.eqb_refl; split; auto].
  assert (Gg : In g (setters st)) by (rewrite E; apply in_elt). assert (Hg := H g Gg).
  unfold writers, label_of. cbn [setters ovar labels]. rewrite E, !ofilter_mid, O.
  assert (Still : ls = labels st -> w = Some 0%nat -> (may_write (label_at (labels st) 0) g' = true -> may_write (label_at (labels st) 0) g = true) ->
    ((if String.eqb (label_at (labels st) 0) (match w with Some p => label_at ls p | None => "" end) then 0 else 1) +
     (List.length (filter (may_write match w with Some p => label_at ls p | None => "" end) l1) + (if may_write match w with Some p => label_at ls p | None => "" end g' then 1 else 0) +
      List.length (filter (may_write match w with Some p => label_at ls p | None => "" end) l2)) <=
     List.length (filter (may_write (label_at (labels st) 0)) l1) + (if may_write (label_at (labels st) 0) g then 1 else 0) + List.length (filter (may_write (label_at (labels st) 0)) l2))%nat /\
    (label_at (labels st) 0 <> "" -> match w with Some p => label_at ls p | None => "" end <> "")).
  { intros -> -> M. rewrite String.eqb_refl. split; [|auto]. destruct (may_write (label_at (labels st) 0) g'); [rewrite M by reflexivity; lia|lia]. }
  unfold se_step in P. rewrite O in P. destruct g as [cs w0]. cbn [oat calls] in *. unfold may_write, ahead, inside in Still |- *.
  destruct w0 as [|xs|xs|p [|x xs]|p x xs]; try contradiction.
  - destruct cs as [|ys cs]; injection P as <- <- <-; apply Still; auto.
  - injection P as <- <- <-. apply Still; auto.
  - injection P as <- <- <-. apply Still; auto.
  - injection P as <- <- <-. subst p. apply Still; auto. cbn [oat calls]. rewrite some_text, no_text.
    destruct (String.eqb_spec x "") as [->|X]; cbn [negb andb app existsb String.eqb orb]; [auto|].
    apply String.eqb_neq in X. destruct (String.eqb (label_at (labels st) 0) ""); cbn [andb]; [|discriminate]. rewrite X. reflexivity.
  - destruct Hg as [-> X]. injection P as <- <- <-. rewrite at_same by lia. split; [|auto].
    assert (F : forall l, (forall h, In h l -> True) -> (List.length (filter (fun h => match oat h with Writing _ _ _ => true | _ => (String.eqb x "" && existsb (fun y => negb (String.eqb y "")) (match oat h with Off => [] | Making xs0 | Taking xs0 | Setting _ xs0 => xs0 | Writing _ x0 xs0 => x0 :: xs0 end ++ concat (calls h)))%bool end) l)
      <= List.length (filter (fun h => match oat h with Writing _ _ _ => true | _ => (String.eqb (label_at (labels st) 0) "" && existsb (fun y => negb (String.eqb y "")) (match oat h with Off => [] | Making xs0 | Taking xs0 | Setting _ xs0 => xs0 | Writing _ x0 xs0 => x0 :: xs0 end ++ concat (calls h)))%bool end) l))%nat).
    { intros l _. apply ofilter_le. intros h _. apply String.eqb_neq in X. destruct (oat h); rewrite ?X; cbn [andb]; try discriminate; auto. }
    assert (F1 := F l1 (fun _ _ => I)). assert (F2 := F l2 (fun _ _ => I)). cbn [oat calls]. apply String.eqb_neq in X. rewrite X in *. cbn [andb] in *.
    destruct (String.eqb (label_at (labels st) 0) x); lia.
Qed.
(* An instruction made by ACI before the goroutines start: the label changes at most as
   often as there are goroutines that give one, whatever the schedule. *)
Theorem C147_exact : forall s css q, (changes (once_start (Some s) css) q <= naming css)%nat.
Proof.
  intros s css q.
  assert (K : forall q st, there st -> (changes st q <= writers st)%nat).
  { clear. induction q as [|i q IH]; intros st T; [cbn; lia|]. cbn [changes]. destruct (writers_step st i T) as [W _]. specialize (IH _ (there_step st i T)). lia. }
  specialize (K q _ (there_start s css)). etransitivity; [exact K|]. unfold writers, naming. change (label_of (once_start (Some s) css)) with s. cbn [once_start setters]. clear.
  induction css as [|cs css IH]; [auto|]. cbn [map filter]. unfold may_write at 1. cbn [oat]. unfold ahead, inside. cbn [oat calls app]. fold (gives_label cs).
  destruct (gives_label cs); [|rewrite andb_false_r; exact IH]. destruct (String.eqb _ ""); cbn [andb List.length]; lia.
Qed.
(* It never goes away again; and an instruction that has one keeps it. *)
Theorem C147_kept : forall s css a b, label_of (once_run (once_start (Some s) css) a) <> "" -> label_of (once_run (once_start (Some s) css) (a ++ b)) <> "".
Proof.
  intros s css a b N. induction b as [|i b IH] using rev_ind; [now rewrite app_nil_r|]. rewrite app_assoc, orun_snoc. apply writers_step; [apply there_run|exact IH].
Qed.
Theorem C147_named : forall s css q, s <> "" -> label_of (once_run (once_start (Some s) css) q) = s.
Proof.
  intros s css q N. assert (K : label_of (once_run (once_start (Some s) css) q) = s /\ writers (once_run (once_start (Some s) css) q) = 0%nat); [|apply K].
  induction q as [|i q [I1 I2]] using rev_ind.
  - split; [reflexivity|]. unfold writers. change (label_of (once_run (once_start (Some s) css) [])) with s. cbn [once_run fold_left once_start setters]. apply String.eqb_neq in N.
    induction css as [|cs css IH]; [reflexivity|]. cbn [map filter]. unfold may_write at 1. cbn [oat]. rewrite N. exact IH.
  - rewrite orun_snoc. destruct (writers_step (once_run (once_start (Some s) css) q) i (there_run s css q)) as [W _]. rewrite I1 in W. rewrite I2 in W.
    destruct (String.eqb_spec s (label_of (once_step (once_run (once_start (Some s) css) q) i))) as [E|E]; [split; [now symmetry|lia]|lia].
Qed.

(* ---- the bound is reached ---- *)
Lemma ostep_at ls v pre g post : once_step (MkOs ls v (pre ++ g :: post)) (List.length pre) = let '(ls', v', g') := se_step ls v g in MkOs ls' v' (pre ++ g' :: post).
Proof. unfold once_step. cbn [setters labels ovar]. rewrite nth_error_app2, Nat.sub_diag by lia. cbn [nth_error]. destruct (se_step ls v g) as [[ls' v'] g']. now rewrite owr_mid. Qed.
Definition still (st : ostate) (q : list nat) (st' : ostate) (n : nat) : Prop := once_run st q = st' /\ changes st q = n.
Lemma still_app st q st1 n r st2 m : still st q st1 n -> still st1 r st2 m -> still st (q ++ r) st2 (n + m).
Proof.
  intros [A B] [C D]. split; [now rewrite orun_app, A|]. subst st1 n. revert st C D. induction q as [|i q IH]; intros st C D; [exact D|].
  cbn [changes app]. rewrite (IH (once_step st i) C D). cbn [changes]. lia.
Qed.
Lemma all_pass names : forall pre, (forall x, In x names -> x <> "") -> exists q,
  still (MkOs [""] (Some 0%nat) (pre ++ map (fun x => MkSe [[x]] Off) names)) q (MkOs [""] (Some 0%nat) (pre ++ map (fun x => MkSe [] (Writing 0 x [])) names)) 0.
Proof.
  induction names as [|x names IH]; intros pre N; [now exists []|].
  destruct (IH (pre ++ [MkSe [] (Writing 0 x [])])) as (q & Q); [intros y Y; apply N; now right|]. rewrite <- !app_assoc in Q.
  exists ([List.length pre; List.length pre; List.length pre] ++ q). apply (still_app _ _ (MkOs [""] (Some 0%nat) (pre ++ MkSe [] (Writing 0 x []) :: map (fun x => MkSe [[x]] Off) names)) 0 _ _ 0); [|exact Q].
  assert (X : String.eqb x "" = false) by (apply String.eqb_neq, N; now left). cbn [map].
  unfold still, once_run. cbn [fold_left changes]. rewrite !ostep_at. cbn [se_step oat calls]. rewrite !ostep_at. cbn [se_step oat calls]. rewrite !ostep_at. cbn [se_step oat calls].
  rewrite some_text, X. cbn. now split.
Qed.
Lemma all_write names : forall s pre, (forall x, In x names -> x <> s) -> NoDup names -> exists q,
  still (MkOs [s] (Some 0%nat) (pre ++ map (fun x => MkSe [] (Writing 0 x [])) names)) q (MkOs [last names s] (Some 0%nat) (pre ++ map (fun x => MkSe [] (Setting 0 [])) names)) (List.length names).
Proof.
  induction names as [|x names IH]; intros s pre N D; [now exists []|]. inversion D as [|? ? D1 D2]; subst.
  destruct (IH x (pre ++ [MkSe [] (Setting 0 [])])) as (q & Q); [intros y Y ->; contradiction|exact D2|]. rewrite <- !app_assoc in Q.
  exists ([List.length pre] ++ q). replace (last (x :: names) s) with (last names x).
  2: { clear. revert x. induction names as [|y names IH]; intros x; [reflexivity|]. cbn [last] in *. destruct names; [reflexivity|]. apply IH. }
  apply (still_app _ _ (MkOs [x] (Some 0%nat) (pre ++ MkSe [] (Setting 0 []) :: map (fun x => MkSe [] (Writing 0 x [])) names)) 1 _ _ (List.length names)); [|exact Q].
  unfold still, once_run. cbn [fold_left changes map]. rewrite !ostep_at. cbn. split; [reflexivity|].
  destruct (String.eqb_spec s x) as [->|]; [|reflexivity]. exfalso. apply (N x); [now left|reflexivity].
Qed.
Lemma naming_all names : (forall x, In x names -> x <> "") -> naming (map (fun x => [[x]]) names) = List.length names.
Proof.
  intros N. induction names as [|x names IH]; [reflexivity|]. unfold naming in *. cbn [map filter]. unfold gives_label at 1. cbn.
  destruct (String.eqb_spec x "") as [->|]; [exfalso; now apply (N "" (or_introl eq_refl))|]. cbn. rewrite IH; [reflexivity|]. intros y Y. apply N. now right.
Qed.
Theorem C147_reached : forall names, NoDup names -> (forall x, In x names -> x <> "") ->
  exists q, changes (once_start (Some "") (map (fun x => [[x]]) names)) q = List.length names /\
            naming (map (fun x => [[x]]) names) = List.length names.
Proof.
  intros names D N. destruct (all_pass names [] N) as (q1 & Q1). destruct (all_write names "" [] N D) as (q2 & Q2).
  exists (q1 ++ q2). split; [|now apply naming_all]. cbn [once_start]. rewrite map_map. apply (still_app _ _ _ 0 _ _ _ Q1 Q2).
Qed.
(* False: a label that was there is replaced; and where the variable is still zero when the
   goroutines start, it can also be gone again with the instruction it was given to. *)
Theorem C147_refuted : ~ (forall v css q, label_stays v css q) /\
  (exists css a b, label_of (once_run (once_start (Some "") css) a) = "a" /\ label_of (once_run (once_start (Some "") css) (a ++ b)) = "b") /\
  (exists css a b, label_of (once_run (once_start None css) a) = "a" /\ label_of (once_run (once_start None css) (a ++ b)) = "" /\
     all_done (once_run (once_start None css) (a ++ b))).
Proof.
  split; [|split].
  - intros H. specialize (H (Some "") [[["a"]]; [["b"]]] [0; 0; 0; 1; 1; 1; 0; 1]%nat [0; 0; 0; 1; 1; 1; 0]%nat [1]%nat [] eq_refl).
    vm_compute in H. assert (X : "b" = "a") by (apply H; discriminate). discriminate.
  - exists [[["a"]]; [["b"]]], [0; 0; 0; 1; 1; 1; 0]%nat, [1]%nat. split; vm_compute; reflexivity.
  - exists [[["a"]]; [[]]], [0; 1; 0; 0; 0; 0; 0]%nat, [1; 1; 1]%nat. split; [vm_compute; reflexivity|]. split; [vm_compute; reflexivity|].
    vm_compute. intros g [<-|[<-|[]]]; now split.
Qed.

(* ---- one goroutine ---- *)
Definition first_label (v : option string) (l : list string) : string := first_nonempty (match v with Some s => s :: l | None => l end).
Definition alone_at (v : option string) (cs : list (list string)) (st : ostate) : Prop :=
  exists g past, setters st = [g] /\ concat cs = past ++ ahead g /\ label_of st = first_label v past /\
    match oat g with Off => True | Making _ => ovar st = None | Taking _ => ovar st <> None | Setting p _ => ovar st = Some p
    | Writing p x _ => ovar st = Some p /\ label_of st = "" /\ x <> "" end.
Lemma first_snoc v past x : first_label v (past ++ [x]) = if String.eqb (first_label v past) "" then x else first_label v past.
Proof.
  assert (K : forall l, first_nonempty (l ++ [x]) = if String.eqb (first_nonempty l) "" then x else first_nonempty l).
  { induction l as [|a l IH]; cbn; [now destruct (String.eqb_spec x "")|]. destruct (String.eqb_spec a ""); [exact IH|]. apply String.eqb_neq in n. now rewrite n. }
  destruct v as [s|]; [apply (K (s :: past))|apply K].
Qed.
Lemma alone_run v cs q : alone_at v cs (once_run (once_start v [cs]) q).
Proof.
  induction q as [|i q IH] using rev_ind.
  - exists (MkSe cs Off), []. destruct v as [s|]; (split; [reflexivity|]); (split; [reflexivity|]); (split; [|exact I]); [|reflexivity]. unfold first_label. cbn. now destruct (String.eqb_spec s "").
  - rewrite orun_snoc. destruct (sound_run v [cs] q) as [V So]. set (st := once_run (once_start v [cs]) q) in *. destruct IH as (g & past & G & C & L & W).
    destruct i as [|i]; [|exists g, past; unfold once_step; rewrite G; cbn [nth_error]; destruct i; auto].
    unfold once_step. rewrite G. cbn [nth_error]. assert (Sg := So g ltac:(rewrite G; now left)).
    destruct g as [cl w]. unfold ahead, inside in C. cbn [oat calls] in *. unfold se_step. cbn [oat calls]. unfold label_of in *. destruct w as [|xs|xs|p [|x xs]|p x xs].
    + destruct cl as [|ys cl]; cbn [wr].
      * exists (MkSe [] Off), past. auto.
      * exists (MkSe cl (match ovar st with None => Making ys | Some _ => Taking ys end)), past. cbn [setters ovar labels oat]. split; [reflexivity|]. split; [unfold ahead, inside; destruct (ovar st); exact C|]. split; [exact L|]. now destruct (ovar st).
    + cbn [wr]. exists (MkSe cl (Taking xs)), past. split; [reflexivity|]. split; [exact C|]. unfold label_of. cbn [ovar labels oat]. split; [|discriminate]. rewrite W in L.
      unfold label_at. rewrite app_nth2, Nat.sub_diag by lia. exact L.
    + cbn [wr]. destruct (ovar st) as [p|] eqn:O; [|contradiction]. exists (MkSe cl (Setting p xs)), past. split; [reflexivity|]. split; [exact C|]. unfold label_of. cbn [ovar labels oat]. auto.
    + cbn [wr]. exists (MkSe cl Off), past. split; [reflexivity|]. split; [exact C|]. unfold label_of. cbn [ovar labels oat]. auto.
    + cbn [wr]. rewrite some_text, no_text. rewrite W in L. destruct (String.eqb_spec x "") as [->|X]; cbn [negb andb].
      * exists (MkSe cl (Setting p xs)), (past ++ [""]). split; [reflexivity|]. split; [rewrite C; now rewrite <- app_assoc|]. unfold label_of. cbn [ovar labels oat]. rewrite W.
        split; [|reflexivity]. rewrite first_snoc, <- L. now destruct (String.eqb_spec (label_at (labels st) p) "").
      * destruct (String.eqb_spec (label_at (labels st) p) "") as [Y|Y].
        -- exists (MkSe cl (Writing p x xs)), past. split; [reflexivity|]. split; [exact C|]. unfold label_of. cbn [ovar labels oat]. rewrite W. auto.
        -- exists (MkSe cl (Setting p xs)), (past ++ [x]). split; [reflexivity|]. split; [rewrite C; now rewrite <- app_assoc|]. unfold label_of. cbn [ovar labels oat]. rewrite W.
           split; [|reflexivity]. rewrite first_snoc, <- L. apply String.eqb_neq in Y. now rewrite Y.
    + cbn [wr]. destruct W as (W & Y & X). rewrite W in *. exists (MkSe cl (Setting p xs)), (past ++ [x]). split; [reflexivity|]. split; [rewrite C; now rewrite <- app_assoc|]. unfold label_of. cbn [ovar labels oat].
      split; [|reflexivity]. rewrite at_same by now apply V. rewrite first_snoc, <- L, Y. reflexivity.
Qed.
(* One goroutine on its own: the first label given counts, as C39 says. *)
Theorem C147_alone : forall v cs q, all_done (once_run (once_start v [cs]) q) ->
  label_of (once_run (once_start v [cs]) q) = first_nonempty (match v with Some s => s :: concat cs | None => concat cs end).
Proof.
  intros v cs q D. destruct (alone_run v cs q) as (g & past & G & C & L & _). destruct (D g) as [X Y]; [rewrite G; now left|].
  unfold ahead, inside in C. rewrite X, Y in C. cbn in C. rewrite app_nil_r in C. rewrite C. exact L.
Qed.
(* ---- how many instructions a zero variable is given ---- *)
Definition may_make (v : option nat) (g : setter) : bool :=
  match oat g with Making _ => true | Off => match v with None => negb (Nat.eqb (List.length (calls g)) 0) | Some _ => false end | _ => false end.
Lemma made_step st i : sound_at st ->
  (List.length (labels (once_step st i)) + List.length (filter (may_make (ovar (once_step st i))) (setters (once_step st i))) <=
   List.length (labels st) + List.length (filter (may_make (ovar st)) (setters st)))%nat.
Proof.
  intros [_ So]. destruct (ostep_split st i) as [(l1 & g & l2 & ls & w & g' & E & _ & P & ->)|K]; [|now rewrite K]. cbn [labels ovar setters].
  assert (Sg := So g ltac:(rewrite E; apply in_elt)). rewrite E, !ofilter_mid.
  assert (Less : forall p l, (List.length (filter (may_make (Some p)) l) <= List.length (filter (may_make (ovar st)) l))%nat).
  { intros p l. apply ofilter_le. intros h _. unfold may_make. destruct (oat h); auto. discriminate. }
  unfold se_step in P. destruct g as [cs w0]. cbn [oat calls] in P, Sg. unfold may_make at 2 5. cbn [oat calls].
  destruct w0 as [|xs|xs|p [|x xs]|p x xs]; [destruct cs as [|ys cs]| | | | |]; injection P as <- <- <-; cbn [oat calls]; rewrite ?app_length, ?owr_len.
  - lia.
  - destruct (ovar st); cbn [List.length Nat.eqb negb]; lia.
  - specialize (Less (List.length (labels st))). pose proof (Less l1). pose proof (Less l2). cbn [List.length]. lia.
  - destruct (ovar st); [|contradiction]. lia.
  - destruct Sg as [_ Sg]. destruct (ovar st); [|contradiction]. lia.
  - destruct (_ && _)%bool; lia.
  - lia.
Qed.
(* A variable that is zero when the goroutines start is given at most as many new
   instructions as there are goroutines that call Set; the last one stays. *)
Theorem C147_made : forall css q, (List.length (labels (once_run (once_start None css) q)) <= calling css)%nat.
Proof.
  intros css q. assert (K : (List.length (labels (once_run (once_start None css) q)) + List.length (filter (may_make (ovar (once_run (once_start None css) q))) (setters (once_run (once_start None css) q))) <= calling css)%nat); [|lia].
  induction q as [|i q IH] using rev_ind.
  - cbn [once_run fold_left once_start labels setters ovar List.length Nat.add]. unfold calling. clear. induction css as [|cs css IH]; [auto|]. cbn [map filter]. unfold may_make at 1. cbn [oat calls].
    destruct (negb _); cbn [List.length]; lia.
  - rewrite orun_snoc. pose proof (made_step _ i (sound_run None css q)). lia.
Qed.

(* ---- every call can come to its end ---- *)
Lemma set_ends pre post cs p xs : forall ls v, exists q ls', once_run (MkOs ls v (pre ++ MkSe cs (Setting p xs) :: post)) q = MkOs ls' v (pre ++ MkSe cs Off :: post).
Proof.
  induction xs as [|x xs IH]; intros ls v.
  - exists [List.length pre], ls. unfold once_run. cbn [fold_left]. now rewrite ostep_at.
  - destruct ((0 <? String.length x) && (String.length (label_at ls p) =? 0))%nat eqn:B.
    + destruct (IH (wr ls p x) v) as (q & ls' & Q). exists ([List.length pre; List.length pre] ++ q), ls'. rewrite orun_app. unfold once_run at 2. cbn [fold_left]. rewrite ostep_at. cbn [se_step oat calls]. rewrite B, ostep_at. exact Q.
    + destruct (IH ls v) as (q & ls' & Q). exists ([List.length pre] ++ q), ls'. rewrite orun_app. unfold once_run at 2. cbn [fold_left]. rewrite ostep_at. cbn [se_step oat calls]. rewrite B. exact Q.
Qed.
Lemma take_ends pre post cs xs : forall ls v, exists q ls', once_run (MkOs ls v (pre ++ MkSe cs (Taking xs) :: post)) q = MkOs ls' v (pre ++ MkSe cs Off :: post).
Proof.
  intros ls [p|].
  - destruct (set_ends pre post cs p xs ls (Some p)) as (q & ls' & Q). exists ([List.length pre] ++ q), ls'. rewrite orun_app. unfold once_run at 2. cbn [fold_left]. now rewrite ostep_at.
  - exists [List.length pre], ls. unfold once_run. cbn [fold_left]. now rewrite ostep_at.
Qed.
Lemma make_ends pre post cs xs : forall ls v, exists q ls' v', once_run (MkOs ls v (pre ++ MkSe cs (Making xs) :: post)) q = MkOs ls' v' (pre ++ MkSe cs Off :: post).
Proof.
  intros ls v. destruct (take_ends pre post cs xs (ls ++ [""]) (Some (List.length ls))) as (q & ls' & Q). exists ([List.length pre] ++ q), ls', (Some (List.length ls)).
  rewrite orun_app. unfold once_run at 2. cbn [fold_left]. now rewrite ostep_at.
Qed.
Lemma calls_end pre post cs : forall ls v, exists q ls' v', once_run (MkOs ls v (pre ++ MkSe cs Off :: post)) q = MkOs ls' v' (pre ++ MkSe [] Off :: post).
Proof.
  induction cs as [|xs cs IH]; intros ls v; [now exists [], ls, v|].
  assert (K : exists q ls' v', once_run (once_step (MkOs ls v (pre ++ MkSe (xs :: cs) Off :: post)) (List.length pre)) q = MkOs ls' v' (pre ++ MkSe cs Off :: post)).
  { rewrite ostep_at. cbn [se_step oat calls]. destruct v; [|apply make_ends]. destruct (take_ends pre post cs xs ls (Some n)) as (q & ls' & Q). now exists q, ls', (Some n). }
  destruct K as (q1 & l1 & v1 & Q1). destruct (IH l1 v1) as (q2 & l2 & v2 & Q2). exists ((List.length pre :: q1) ++ q2), l2, v2. rewrite orun_app. change (once_run (MkOs ls v (pre ++ MkSe (xs :: cs) Off :: post)) (List.length pre :: q1)) with (once_run (once_step (MkOs ls v (pre ++ MkSe (xs :: cs) Off :: post)) (List.length pre)) q1).
  now rewrite Q1.
Qed.
Lemma setter_ends pre post g : forall ls v, exists q ls' v', once_run (MkOs ls v (pre ++ g :: post)) q = MkOs ls' v' (pre ++ MkSe [] Off :: post).
Proof.
  intros ls v. destruct g as [cs w].
  assert (K : exists q ls' v', once_run (MkOs ls v (pre ++ MkSe cs w :: post)) q = MkOs ls' v' (pre ++ MkSe cs Off :: post)).
  { destruct w as [|xs|xs|p xs|p x xs]; [now exists [], ls, v|apply make_ends| | |].
    - destruct (take_ends pre post cs xs ls v) as (q & ls' & Q). now exists q, ls', v.
    - destruct (set_ends pre post cs p xs ls v) as (q & ls' & Q). now exists q, ls', v.
    - destruct (set_ends pre post cs p xs (wr ls p x) v) as (q & ls' & Q). exists ([List.length pre] ++ q), ls', v. rewrite orun_app. unfold once_run at 2. cbn [fold_left]. now rewrite ostep_at. }
  destruct K as (q1 & l1 & v1 & Q1). destruct (calls_end pre post cs l1 v1) as (q2 & l2 & v2 & Q2). exists (q1 ++ q2), l2, v2. now rewrite orun_app, Q1.
Qed.
(* However the calls have been interleaved so far, they can all return. *)
Theorem C147_returns : forall v css q, exists q', all_done (once_run (once_start v css) (q ++ q')).
Proof.
  intros v css q. assert (K : forall post pre ls w, (forall g, In g pre -> calls g = [] /\ oat g = Off) -> exists q', all_done (once_run (MkOs ls w (pre ++ post)) q')).
  { clear. induction post as [|g post IH]; intros pre ls w H.
    - exists []. intros g G. cbn [once_run fold_left setters] in G. rewrite app_nil_r in G. auto.
    - destruct (setter_ends pre post g ls w) as (q1 & l1 & v1 & Q1). destruct (IH (pre ++ [MkSe [] Off]) l1 v1) as (q2 & Q2).
      + intros h Hh. apply in_app_or in Hh. destruct Hh as [Hh|[<-|[]]]; auto.
      + exists (q1 ++ q2). rewrite orun_app, Q1. rewrite <- app_assoc in Q2. exact Q2. }
  destruct (once_run (once_start v css) q) as [ls w gs] eqn:E. destruct (K gs [] ls w) as (q' & Q); [intros g []|]. exists q'. now rewrite orun_app, E.
Qed.
Example C147_witness :
  one_by_one None [[["a"; "b"]]; [["c"]]] [0; 0; 0; 0; 0; 0; 0; 1; 1; 1; 1] /\
  label_of (once_run (once_start None [[["a"; "b"]]; [["c"]]]) [0; 0; 0; 0; 0; 0; 0; 1; 1; 1; 1]) = "a" /\
  all_done (once_run (once_start None [[[""; "a"]; ["b"]]]) [0; 0; 0; 0; 0; 0; 0; 0; 0; 0; 0]) /\
  changes (once_start (Some "") [[["a"]]; [["b"]]]) [0; 0; 0; 1; 1; 1; 0; 1] = 2.
Proof.
  split; [|split; [vm_compute; reflexivity|split; [vm_compute; intros g [<-|[]]; now split|vm_compute; reflexivity]]].
  intros a b E i j gi gj Gi Wi Gj Wj.
  assert (P : a = firstn (List.length a) [0; 0; 0; 0; 0; 0; 0; 1; 1; 1; 1]) by (rewrite E, firstn_app, firstn_all, Nat.sub_diag, firstn_O; now rewrite app_nil_r).
  assert (L : (List.length a <= 11)%nat) by (apply (f_equal (@List.length nat)) in E; rewrite app_length in E; cbn in E; lia).
  revert P L. generalize (List.length a). intros n -> L. clear E.
  do 12 (destruct n as [|n]; [
    destruct i as [|[|i]]; destruct j as [|[|j]]; vm_compute in Gi, Gj; try reflexivity; try discriminate; try (destruct i; discriminate Gi); try (destruct j; discriminate Gj);
      injection Gi as <-; injection Gj as <-; vm_compute in Wi, Wj; congruence|]). lia.
Qed.
Print Assumptions C147_values.
Print Assumptions C147_by_turns.
Print Assumptions C147_exact.
Print Assumptions C147_kept.
Print Assumptions C147_named.
Print Assumptions C147_reached.
Print Assumptions C147_refuted.
Print Assumptions C147_alone.
Print Assumptions C147_made.
Print Assumptions C147_returns.
