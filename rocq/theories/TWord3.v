(* C150 and the part of C148 about texts: what String of a permission shows while other
   goroutines call Shift and Unshift on it. *)
From Coq Require Import String List PeanoNat NArith ZArith Bool Lia.
From Verif Require Import GoStr Shifty MHeap MRights SRights PRights MWord SWord TWord.
Import ListNotations.
Open Scope list_scope.

Section Seen.
Variable sh : shifty.
Hypothesis OK : shifty_ok sh.
Notation lib := (perm_lib sh).

Definition all_named (css : list (list perm_call)) : Prop := forall cs, In cs css -> calls_ok arg_named cs.
Lemma named_covered css : all_named css -> all_covered css.
Proof. intros H cs I. apply calls_named_covered, H, I. Qed.
Lemma app_named e v : arg_named (snd e) -> (v < 1024)%N -> (app1 _ lib v e < 1024)%N.
Proof.
  intros A L. rewrite perm_app. destruct e as [b x]. cbn [fst snd] in *.
  destruct (named_run_lt sh OK [if b then CShift [x] else CUnshift [x]] true v L) as (v' & E & L').
  - intros c y [<-|[]]. destruct b; intros [<-|[]]; exact A.
  - destruct b; cbn in E; injection E as <-; exact L'.
Qed.
Lemma at_named v css q t : (v < 1024)%N -> all_named css -> (bits_at sh v css q t < 1024)%N.
Proof.
  intros L A. apply (start_keeps _ lib (fun u => (u < 1024)%N) (fun e => arg_named (snd e))); [|exact L|].
  - intros e u. apply app_named.
  - intros es e I J. apply in_map_iff in I as (cs & <- & I). apply perm_edits_in in J as (xs & J & K).
    apply (A cs I (if fst e then CShift xs else CUnshift xs) (snd e) K). now destruct (fst e).
Qed.
Lemma filter_map {A B} (f : A -> B) (p : B -> bool) l : filter p (map f l) = map f (filter (fun x => p (f x)) l).
Proof. induction l as [|x l IH]; [reflexivity|]. cbn. destruct (p (f x)); cbn; now rewrite IH. Qed.
Lemma high v i : (v < 1024)%N -> (10 <= i)%N -> N.testbit v i = false.
Proof.
  intros L H. destruct (N.eq_dec v 0) as [->|Z]; [apply N.bits_0|]. apply N.bits_above_log2.
  apply N.lt_le_trans with 10%N; [|exact H]. apply N.log2_lt_pow2; [lia|exact L].
Qed.
(* the loop over the bits *)
Lemma loop_seen (vs : N -> N) : (forall i, (vs i < 1024)%N) ->
  map (fun i => right_string (2 ^ i)) (filter (fun i => positive_int sh (vs i) (Z.of_N (2 ^ i))) bits16)
  = map right_name (filter (fun r => N.testbit (vs (right_pos r)) (right_pos r)) all_rights).
Proof.
  intros L. rewrite (filter_ext_in _ (fun i => N.testbit (vs i) i)).
  - change bits16 with (map right_pos all_rights ++ [10; 11; 12; 13; 14; 15]%N). rewrite filter_app.
    replace (filter (fun i => N.testbit (vs i) i) [10; 11; 12; 13; 14; 15]%N) with (@nil N)
      by (cbn [filter]; rewrite !high by (apply L || (vm_compute; discriminate)); reflexivity).
    rewrite app_nil_r, filter_map, map_map. apply map_ext. intros r. now destruct r.
  - intros i Hi. unfold positive_int. assert (Hw : (i < 16)%N).
    { cbn in Hi. repeat (destruct Hi as [<-|Hi]; [reflexivity|]). destruct Hi. }
    replace ((Z.of_N (2 ^ i) =? 0)%Z) with false.
    + cbn [andb]. assert (V : (vs i < 65536)%N) by (specialize (L i); lia). destruct (OK 16%N (vs i) V) as (_ & H & _). apply H, Hw.
    + symmetry. apply Z.eqb_neq. assert (2 ^ i <> 0)%N by (apply N.pow_nonzero; discriminate). lia.
Qed.
Lemma whole_num v : (v < 1024)%N -> (whole_set (bits_set v) <-> v = 895%N \/ v = 1023%N \/ v = 0%N).
Proof.
  intros L. split.
  - intros [H|[H|H]]; [left|right; left|right; right]; apply bits_set_inj; try reflexivity; try exact L; intros r; rewrite H; now destruct r.
  - intros [-> | [-> | ->]]; [left|right; left|right; right]; intros r; now destruct r.
Qed.
Lemma seen_whole v0 vs : (v0 < 1024)%N -> whole_set (bits_set v0) -> perm_names_seen sh v0 vs = names_of v0.
Proof. intros L W. apply whole_num in W; [|exact L]. destruct W as [-> | [-> | ->]]; reflexivity. Qed.
Lemma seen_else v0 vs : (v0 < 1024)%N -> ~ whole_set (bits_set v0) -> (forall i, (vs i < 1024)%N) ->
  perm_names_seen sh v0 vs = map right_name (filter (fun r => N.testbit (vs (right_pos r)) (right_pos r)) all_rights).
Proof.
  intros L W V. rewrite whole_num in W by exact L. unfold perm_names_seen. change AllAccess with 895%N. change NoAccess with 0%N.
  destruct (N.eqb_spec v0 895); [tauto|]. destruct (N.eqb_spec v0 1023); [tauto|]. destruct (N.eqb_spec v0 0); [tauto|]. now apply loop_seen.
Qed.
Lemma whole_ext g g' : (forall r, g r = g' r) -> whole_set g -> whole_set g'.
Proof. intros E [H|[H|H]]; [left|right; left|right; right]; intros r; now rewrite <- E. Qed.
Lemma whole_dec v : (v < 1024)%N -> whole_set (bits_set v) \/ ~ whole_set (bits_set v).
Proof.
  intros L. rewrite whole_num by exact L. destruct (N.eq_dec v 895); [tauto|]. destruct (N.eq_dec v 1023); [tauto|]. destruct (N.eq_dec v 0); tauto.
Qed.
End Seen.

(* the right is held after the first k steps *)
Definition held_at sh d v css q k r : bool := held sh (PSome d (bits_at sh v css q k)) r.
(* the rights between the parentheses, each looked at when its bit is read *)
Definition seen_one_by_one sh d v css q (t : N -> nat) : list string :=
  map right_name (filter (fun r => held_at sh d v css q (t (right_pos r)) r) all_rights).

(* Exactly what is shown: a whole set at the first read decides; otherwise each right is
   shown if it is held at the moment its own bit is read. *)
Theorem C150_exact : forall sh, shifty_ok sh -> forall d v css q t0 t, (v < 1024)%N -> all_named css ->
  (whole_set (held_at sh d v css q t0) -> perm_string_seen sh d v css q t0 t = spec_text d (held_at sh d v css q t0)) /\
  (~ whole_set (held_at sh d v css q t0) ->
     perm_string_seen sh d v css q t0 t = ((if d then "allow" else "deny") ++ "(" ++ join "," (seen_one_by_one sh d v css q t) ++ ")")%string).
Proof.
  intros sh OK d v css q t0 t L A.
  assert (B : forall k r, held_at sh d v css q k r = bits_set (bits_at sh v css q k) r).
  { intros k r. unfold held_at. apply held_bit; [exact OK|]. pose proof (at_named sh OK v css q k L A). lia. }
  split; intros W.
  - unfold perm_string_seen, spec_text. rewrite seen_whole; [|now apply at_named|exact (whole_ext _ _ (B t0) W)].
    rewrite names_of_spec by now apply at_named. rewrite (spec_names_ext _ (held_at sh d v css q t0)) by (intros r; now rewrite B). now destruct d.
  - unfold perm_string_seen. rewrite (seen_else sh OK); [|now apply at_named| |intros i; now apply at_named].
    + unfold seen_one_by_one. rewrite (filter_ext _ (fun r => held_at sh d v css q (t (right_pos r)) r)); [now destruct d|].
      intros r. rewrite B. reflexivity.
    + intros X. apply W. exact (whole_ext _ _ (fun r => eq_sym (B t0 r)) X).
Qed.
(* Nothing changes during the call: the text is that of the permission. *)
Theorem C150_still : forall sh d v css q t0 t, (forall i, bits_at sh v css q (t i) = bits_at sh v css q t0) ->
  perm_string_seen sh d v css q t0 t = perm_string sh (PSome d (bits_at sh v css q t0)).
Proof.
  intros sh d v css q t0 t H. unfold perm_string_seen, perm_names_seen, perm_string, perm_right_names.
  assert (X : filter (fun i => positive_int sh (bits_at sh v css q (t i)) (Z.of_N (2 ^ i))) bits16 =
              filter (fun i => positive_int sh (bits_at sh v css q t0) (Z.of_N (2 ^ i))) bits16) by (apply filter_ext; intros i; now rewrite H).
  rewrite X. now destruct d.
Qed.
(* One change of one right during the call: the text is that before or that after it. *)
Theorem C150_one_change : forall sh, shifty_ok sh -> forall d v css q t0 t r0, (v < 1024)%N -> all_named css -> in_order t0 t ->
  (forall r i, r <> r0 -> held_at sh d v css q (t i) r = held_at sh d v css q t0 r) -> ~ whole_set (held_at sh d v css q t0) ->
  ~ whole_set (held_at sh d v css q (t (right_pos r0))) ->
  perm_string_seen sh d v css q t0 t = perm_string sh (PSome d (bits_at sh v css q (t (right_pos r0)))).
Proof.
  intros sh OK d v css q t0 t r0 L A O S W W'.
  destruct (C150_exact sh OK d v css q t0 t L A) as [_ X]. rewrite (X W).
  destruct (C150_exact sh OK d v css q (t (right_pos r0)) (fun _ => t (right_pos r0)) L A) as [_ Y].
  rewrite <- (C150_still sh d v css q (t (right_pos r0)) (fun _ => t (right_pos r0)) (fun _ => eq_refl)). rewrite (Y W').
  unfold seen_one_by_one. rewrite (filter_ext _ (fun r => held_at sh d v css q (t (right_pos r0)) r)); [reflexivity|].
  intros r. destruct (string_dec (right_name r) (right_name r0)) as [E|E].
  - assert (r = r0) by (destruct r, r0; (reflexivity || discriminate)). now subst.
  - assert (r <> r0) by congruence. now rewrite !S.
Qed.
(* The claim is false: a text that is not that of any moment of the run; and a text without
   any right, though a right is held at every moment. *)
Theorem C150_refuted :
  ~ (forall sh, shifty_ok sh -> forall d v css q t0 t, (v < 1024)%N -> all_named css -> in_order t0 t ->
      exists k, perm_string_seen sh d v css q t0 t = perm_string sh (PSome d (bits_at sh v css q k))) /\
  (let css := [[CUnshift [ARight ReadAccess]; CShift [ARight WriteAccess]]] in
   let t (i : N) := if (i =? 0)%N then 0%nat else 4%nat in
   in_order 0 t /\ perm_string_seen shifty_ref true 17 css [0; 0; 0; 0]%nat 0 t = "allow(read,write,search)"%string) /\
  (let css := [[CShift [ARight ReadAccess]; CUnshift [ARight WriteAccess]]] in
   let t (i : N) := if (i =? 0)%N then 0%nat else 4%nat in
   perm_string_seen shifty_ref true 2 css [0; 0; 0; 0]%nat 0 t = "allow()"%string /\
   forall k, exists r, held_at shifty_ref true 2 css [0; 0; 0; 0]%nat k r = true).
Proof.
  assert (O : in_order 0 (fun i : N => if (i =? 0)%N then 0%nat else 4%nat)).
  { split; intros; repeat match goal with |- context[(?a =? 0)%N] => destruct (N.eqb_spec a 0) end; lia. }
  split; [|split; [now split|split; [reflexivity|]]].
  - intros H. destruct (H shifty_ref shifty_ref_ok true 17%N [[CUnshift [ARight ReadAccess]; CShift [ARight WriteAccess]]] [0; 0; 0; 0]%nat 0%nat
      (fun i => if (i =? 0)%N then 0%nat else 4%nat) eq_refl) as (k & K).
    + intros cs [<-|[]] c x [<-|[<-|[]]] [<-|[]]; split; reflexivity.
    + exact O.
    + do 4 (destruct k as [|k]; [discriminate K|]). unfold bits_at in K. destruct k; discriminate K.
  - intros k. do 2 (destruct k as [|k]; [now exists Write|]). do 2 (destruct k as [|k]; [now exists Read|]). exists Read. now destruct k.
Qed.
(* The part of C148 for texts: a right nobody gives does not appear, one nobody takes does
   not disappear. *)
Theorem C148_text : forall sh, shifty_ok sh -> forall d v css q t0 t, (v < 1024)%N -> all_named css ->
  exists ws, perm_string_seen sh d v css q t0 t = ((if d then "allow" else "deny") ++ "(" ++ join "," ws ++ ")")%string /\
    (forall s, In s ws -> word_of_text s) /\
    (forall r, (forall cs, In cs css -> ~ gives_right cs r) -> held sh (PSome d v) r = false -> says_right ws r = false) /\
    (forall r, (forall cs, In cs css -> ~ takes_right cs r) -> held sh (PSome d v) r = true -> says_right ws r = true).
Proof.
  intros sh OK d v css q t0 t L A. pose (ws := perm_names_seen sh (bits_at sh v css q t0) (fun i => bits_at sh v css q (t i))).
  assert (L0 : (v < 65536)%N) by lia.
  assert (K : forall r (b : bool), (forall cs, In cs css -> ~ (if b then takes_right cs r else gives_right cs r)) -> held sh (PSome d v) r = b ->
     forall k, N.testbit (bits_at sh v css q k) (right_pos r) = b).
  { intros r b T H k. pose proof (after_bit sh OK d v css (firstn k q) r b L0 (named_covered css A) T H) as G. unfold perm_after in G.
    rewrite held_bit in G; [exact G|exact OK|]. change (bits_at sh v css q k < 65536)%N. pose proof (at_named sh OK v css q k L A). lia. }
  assert (Sy : forall r (b : bool), (forall k, N.testbit (bits_at sh v css q k) (right_pos r) = b) -> says_right ws r = b).
  { intros r b H. unfold ws. destruct (whole_dec _ (at_named sh OK v css q t0 L A)) as [W|W].
    - rewrite seen_whole; [|now apply at_named|exact W]. unfold says_right. rewrite names_decode by now apply at_named. apply H.
    - rewrite (seen_else sh OK); [|now apply at_named|exact W|intros; now apply at_named].
      unfold says_right. destruct b.
      + apply existsb_exists. exists (right_name r). split; [|unfold text_names; now destruct r]. apply in_map, filter_In. split; [destruct r; cbn; tauto|apply H].
      + apply not_true_iff_false. intros E. apply existsb_exists in E as (s & I & E). apply in_map_iff in I as (r' & <- & I). apply filter_In in I as [_ I].
        assert (r' = r) by (destruct r, r'; (reflexivity || discriminate E)). subst. rewrite H in I. discriminate. }
  exists ws. split; [now destruct d|]. split; [|split; intros r T H; apply Sy; intros k; [exact (K r false T H k)|exact (K r true T H k)]].
  intros s I. unfold ws, perm_names_seen in I. destruct (_ =? AllAccess)%N; [destruct I as [<-|[]]; now left|].
  destruct (_ =? 1023)%N; [destruct I as [<-|[<-|[]]]; [now left|right; right; now exists Proxy]|].
  destruct (_ =? NoAccess)%N; [destruct I as [<-|[]]; right; now left|].
  rewrite (loop_seen sh OK) in I by (intros; now apply at_named). apply in_map_iff in I as (r & <- & _). right. right. now exists r.
Qed.
(* Two goroutines on "allow(read,write,search)": one takes read, one gives proxy; whatever
   the order of their reads and writes, write and search stay and add does not appear. *)
Example C148_witness :
  let css := [[CUnshift [ARight ReadAccess]]; [CShift [AStr "Proxy"]; CUnshift [AInt 1]]] in
  all_named css /\ (forall cs, In cs css -> ~ takes_right cs Write) /\ (forall cs, In cs css -> ~ gives_right cs Add) /\
  perm_string shifty_ref (perm_after shifty_ref true 19 css [0; 1; 0; 1; 1; 1]%nat) = "allow(write,search,proxy)"%string /\
  perm_string shifty_ref (perm_after shifty_ref true 19 css [1; 0; 1; 0; 1; 1]%nat) = "allow(write,search)"%string.
Proof.
  cbn [In]. split; [|split; [|split; [|split; reflexivity]]].
  - intros cs [<-|[<-|[]]] c x; cbn [In]; intros J K; repeat match goal with H : _ \/ _ |- _ => destruct H as [<-|H] | H : False |- _ => destruct H end; cbn in K; repeat match goal with H : _ \/ _ |- _ => destruct H as [<-|H] | H : False |- _ => destruct H end; first [split; reflexivity | discriminate].
  - intros cs [<-|[<-|[]]] (xs & x & I & J & M); cbn [In] in I; repeat match goal with H : _ \/ _ |- _ => destruct H as [H|H] | H : False |- _ => destruct H end; try discriminate I;
      injection I as <-; destruct J as [<-|[]]; discriminate M.
  - intros cs [<-|[<-|[]]] (xs & x & I & J & M); cbn [In] in I; repeat match goal with H : _ \/ _ |- _ => destruct H as [H|H] | H : False |- _ => destruct H end; try discriminate I;
      injection I as <-; destruct J as [<-|[]]; discriminate M.
Qed.
Print Assumptions C150_exact.
Print Assumptions C150_still.
Print Assumptions C150_one_change.
Print Assumptions C150_refuted.
Print Assumptions C148_text.
(* String of "allow(read,search)" while another goroutine takes read: one of two texts;
   a run whose calls leave the rights in between undecided for no one. *)
Example C150_witness :
  let css := [[CUnshift [ARight ReadAccess]]] in
  all_named css /\ ~ whole_set (held_at shifty_ref true 17 css [0; 0]%nat 0) /\
  perm_string_seen shifty_ref true 17 css [0; 0]%nat 0 (fun _ => 1%nat) = "allow(read,search)"%string /\
  perm_string_seen shifty_ref true 17 css [0; 0]%nat 0 (fun _ => 2%nat) = "allow(search)"%string /\
  whole_set (held_at shifty_ref true 895 css [0; 0]%nat 0) /\
  perm_string_seen shifty_ref true 895 css [0; 0]%nat 0 (fun _ => 2%nat) = "allow(all)"%string.
Proof.
  cbn [In]. split; [|split; [|split; [|split; [|split]]]]; try reflexivity.
  - intros cs [<-|[]] c x [<-|[]] [<-|[]]; split; reflexivity.
  - intros [H|[H|H]]; [specialize (H Write)|specialize (H Write)|specialize (H Read)]; discriminate H.
  - left. intros r. now destruct r.
Qed.
