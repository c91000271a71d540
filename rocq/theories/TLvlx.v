(* C08: what the reader of inheritance texts does with every text. *)
From Coq Require Import String Ascii List PeanoNat NArith ZArith Bool Lia.
From Verif Require Import GoStr GoStrFacts Shifty MMisc MKw MAttr MLevels SAttr PRights PKw PMisc PAttr TAttr TLevels.
Import ListNotations.
Open Scope string_scope.

(* The text's head (seven bytes, "parent[" in any case), the text between the brackets,
   the attribute name and what follows its "#". *)
Definition inh_parts (s lv a v : string) : Prop :=
  exists p, s = p ++ lv ++ "]." ++ a ++ "#" ++ v /\ String.length p = 7%nat /\
    has_prefix "parent[" (lc s) = true /\ no_byte "]" lv = true /\ attr_name a.
(* the comma-separated items, blanks removed *)
Definition inh_items (lv : string) : list string := split1 "," (remove_byte " " lv).
Definition names_level (lv : string) (n : N) : Prop := In (digit n) (inh_items lv).

Definition known (s : string) : bool := existsb (fun n => String.eqb s (digit n)) all_levels.
Lemma unknown_zero s : known s = false -> larg_num (LStr s) = 0%N.
Proof.
  intros K. unfold known, all_levels in K. cbn [existsb] in K. repeat (apply orb_false_iff in K as [? K]).
  cbn [larg_num]. unfold levelNumbers. cbn [lvl_of_str].
  change "0" with (digit 0). change "1" with (digit 1). change "2" with (digit 2). change "3" with (digit 3).
  change "4" with (digit 4). change "5" with (digit 5). change "6" with (digit 6). change "7" with (digit 7).
  change "8" with (digit 8). change "9" with (digit 9).
  repeat match goal with H : (s =? _) = false |- _ => rewrite H; clear H end. reflexivity.
Qed.
Lemma known_digit s : known s = true -> exists n, (n < 10)%N /\ s = digit n.
Proof.
  unfold known. rewrite existsb_exists. intros (n & Hn & E). apply String.eqb_eq in E. exists n. split; [|exact E].
  unfold all_levels in Hn. cbn [In] in Hn. lia.
Qed.
Lemma digit_known n : (n < 10)%N -> known (digit n) = true.
Proof. intros H. ten n H; reflexivity. Qed.
Lemma shift_known sh : (forall v, sh_shift sh 16 v 0 = v) -> forall xs v,
  lvl_shift sh v (map LStr xs) = lvl_shift sh v (map LStr (filter known xs)).
Proof.
  intros Z xs. unfold lvl_shift. induction xs as [|x xs IH]; intros v; [reflexivity|].
  cbn [map fold_left filter]. destruct (known x) eqn:K.
  - cbn [map fold_left]. apply IH.
  - rewrite (unknown_zero x K). change (Z.of_N 0) with 0%Z. rewrite Z. apply IH.
Qed.
Lemma known_digits xs : exists ns, filter known xs = map digit ns /\ forall n, In n ns -> (n < 10)%N.
Proof.
  induction xs as [|x xs (ns & E & H)]; [exists []; split; [reflexivity|intros n []]|].
  cbn [filter]. destruct (known x) eqn:K; [|exists ns; split; assumption].
  apply known_digit in K as (n & Hn & ->). exists (n :: ns). cbn [map]. rewrite E. split; [reflexivity|].
  intros m [<-|M]; [exact Hn|now apply H].
Qed.
Lemma digit_inj n m : (n < 10)%N -> (m < 10)%N -> digit n = digit m -> n = m.
Proof. intros Hn Hm. ten n Hn; ten2 m Hm; intros E; try reflexivity; discriminate E. Qed.
Lemma items_levels sh : shifty_ok sh -> (forall v, sh_shift sh 16 v 0 = v) -> forall lv,
  let v := lvl_shift sh 0 (map LStr (inh_items lv)) in
  lsmall v /\ (v <> 0%N <-> exists n, (n < 10)%N /\ names_level lv n) /\
  forall n, (n < 10)%N -> N.testbit v (n + 1) = true <-> names_level lv n.
Proof.
  intros OK Z lv v. destruct (known_digits (inh_items lv)) as (ns & E & H).
  assert (V : v = lvl_shift sh 0 (map LStr (map digit ns))) by (unfold v; rewrite (shift_known sh Z), E; reflexivity).
  assert (I : forall n, (n < 10)%N -> In n ns <-> names_level lv n).
  { intros n Hn. unfold names_level. split; intros M.
    - assert (F : In (digit n) (filter known (inh_items lv))) by (rewrite E; now apply in_map). now apply filter_In in F.
    - assert (F : In (digit n) (filter known (inh_items lv))) by (apply filter_In; split; [exact M|now apply digit_known]).
      rewrite E in F. apply in_map_iff in F as (m & D & F). apply digit_inj in D; [now subst|now apply H|exact Hn]. }
  destruct ns as [|m ns].
  - cbn in V. rewrite V. split; [split; reflexivity|]. split.
    + split; [easy|]. intros (n & Hn & M). now apply I in M.
    + intros n Hn. rewrite N.bits_0, <- (I n Hn). easy.
  - destruct (shift_digits sh OK (m :: ns)) as (S1 & S2 & S3); [easy|exact H|]. rewrite V. split; [exact S1|]. split.
    + split; [intros _|intros _; exact S2]. exists m. split; [apply H; now left|]. apply I; [apply H; now left|now left].
    + intros n Hn. rewrite S3, existsb_exists, <- (I n Hn) by exact Hn.
      split; [intros (k & K & Q); now apply N.eqb_eq in Q as ->|intros M; exists n; split; [exact M|apply N.eqb_refl]].
Qed.

(* Exactly which texts are read, for a bit library that leaves its value alone when given
   zero: those with one known level among their items. *)
Theorem C08_exact : forall sh, shifty_ok sh -> (forall v, sh_shift sh 16 v 0 = v) -> forall s,
  (exists i, parseInheritance sh s = IOk i) <->
  exists lv a v, inh_parts s lv a v /\ exists n, (n < 10)%N /\ names_level lv n.
Proof.
  intros sh OK Z s. split.
  - intros [i H]. unfold parseInheritance in H. destruct (has_prefix "parent[" (lc s)) eqn:P; cbn [negb] in H; [|discriminate].
    destruct (idx "]" (sdrop 7 s)) as [k|] eqn:I; [|discriminate].
    destruct (String.get (k + 1) (sdrop 7 s)) as [c|] eqn:G; [|discriminate].
    destruct (Ascii.eqb_spec c ".") as [->|]; cbn [negb] in H; [|discriminate].
    apply idx_split in I as (lv & b & E & Hno & Hl).
    assert (B : exists rest, b = String "." rest).
    { rewrite E in G. replace (lv ++ String "]" b) with ((lv ++ "]") ++ b) in G by (rewrite app_assoc'; reflexivity).
      destruct b as [|c b].
      - exfalso. replace (k + 1)%nat with (String.length (lv ++ "]")) in G by (rewrite length_app, Hl; reflexivity).
        replace ((lv ++ "]") ++ "") with (lv ++ "]") in G by (generalize (lv ++ "]"); intros x; induction x as [|y x IH]; [reflexivity|cbn; now rewrite <- IH]). revert G. clear. generalize (lv ++ "]"). intros x. induction x as [|y x IH]; [discriminate|exact IH].
      - replace (k + 1)%nat with (String.length (lv ++ "]")) in G by (rewrite length_app, Hl; reflexivity).
        rewrite get_app in G. injection G as ->. now exists b. }
    destruct B as [rest ->].
    assert (L : String.length (stake 7 s) = 7%nat).
    { assert (L : String.length (sdrop 7 s) <> 0%nat) by (rewrite E, length_app; cbn; lia).
      clear -L. revert L. generalize 7%nat as n. intros n. revert s. induction n as [|n IH]; intros s L; [easy|]. destruct s; [easy|]. cbn in *. now rewrite IH. }
    assert (S : s = stake 7 s ++ lv ++ "]." ++ rest) by (change (lv ++ "]." ++ rest) with (lv ++ String "]" (String "." rest)); rewrite <- E; symmetry; apply stake_sdrop).
    assert (R : parseInheritance sh s = IOk i).
    { unfold parseInheritance. rewrite P. cbn [negb]. rewrite E at 1. rewrite (idx_app "]" lv (String "." rest)) by exact Hno. rewrite Hl, G. exact H. }
    rewrite S in R. rewrite parse_shape in R by (try rewrite <- S; assumption). cbv zeta in R. fold (inh_items lv) in R.
    destruct (items_levels sh OK Z lv) as (_ & NZ & _). cbv zeta in NZ.
    destruct (N.eqb_spec (lvl_shift sh 0 (map LStr (inh_items lv))) 0) as [|N0]; [discriminate|].
    destruct (parseATBTV rest []) as [r|] eqn:A; [|discriminate].
    destruct (proj1 (C23_accept rest [])) as (a & v & -> & Ha); [now exists r|].
    exists lv, a, v. split; [|now apply NZ]. exists (stake 7 s). repeat (split; [assumption|]). assumption.
  - intros (lv & a & v & (p & E & Hp & Pf & Hno & Ha) & n & Hn & M).
    rewrite E. rewrite parse_shape by (try rewrite <- E; assumption). cbv zeta. fold (inh_items lv).
    destruct (items_levels sh OK Z lv) as (_ & NZ & _). cbv zeta in NZ.
    destruct (N.eqb_spec (lvl_shift sh 0 (map LStr (inh_items lv))) 0) as [X|_].
    + exfalso. apply (proj2 NZ); [|exact X]. now exists n.
    + destruct (proj2 (C23_accept (a ++ "#" ++ v) [])) as [r ->]; [now exists a, v|]. now eexists.
Qed.
Lemma parsed_nonzero x kws r : parseATBTV x kws = Some r -> abtv_isZero r = false.
Proof.
  unfold parseATBTV. destruct (idx "#" x); [|discriminate]. destruct (String.eqb _ badAT); [discriminate|].
  assert (K : assertATBTVBindKeyword kws = BindUAT \/ assertATBTVBindKeyword kws = BindGAT).
  { unfold assertATBTVBindKeyword. destruct kws as [|[k|] ?]; auto. destruct (N.eqb_spec k BindGAT) as [-> |_]; auto. }
  destruct (negb _); intros [= <-]; unfold userOrGroupAttr; cbn; destruct K as [-> | ->]; reflexivity.
Qed.
(* And the levels set are the known ones among the items: every other item is dropped. *)
Theorem C08_exact_levels : forall sh, shifty_ok sh -> (forall v, sh_shift sh 16 v 0 = v) -> forall s lv a v i,
  inh_parts s lv a v -> parseInheritance sh s = IOk i ->
  forall n, (n < 10)%N -> inh_positive sh i (LInt (Z.of_N n)) = true <-> names_level lv n.
Proof.
  intros sh OK Z s lv a v i (p & E & Hp & Pf & Hno & Ha) H n Hn.
  rewrite E in H. rewrite parse_shape in H by (try rewrite <- E; assumption). cbv zeta in H. fold (inh_items lv) in H.
  destruct (items_levels sh OK Z lv) as (S & _ & B). cbv zeta in S, B.
  destruct (_ =? 0)%N in H; [discriminate|].
  destruct (parseATBTV (a ++ "#" ++ v) []) as [r|] eqn:A; [|discriminate]. injection H as <-.
  rewrite (positive_bit sh OK r _ (LInt (Z.of_N n)) n); [now apply B|eapply parsed_nonzero; exact A|apply S|exact Hn|auto].
Qed.
(* The texts with an item that is no level at all are read as if it were not there. *)
Theorem C08_dropped : forall sh, shifty_ok sh -> (forall v, sh_shift sh 16 v 0 = v) -> forall x y a w,
  no_byte "]" x = true -> no_byte "]" y = true -> no_byte " " x = true -> no_byte " " y = true -> no_byte "," x = true ->
  (forall n, (n < 10)%N -> x <> digit n) ->
  parseInheritance sh ("parent[" ++ (x ++ "," ++ y) ++ "]." ++ a ++ "#" ++ w) =
  parseInheritance sh ("parent[" ++ y ++ "]." ++ a ++ "#" ++ w).
Proof.
  intros sh OK Z x y a w Bx By Sx Sy Cx N.
  assert (K : known x = false).
  { destruct (known x) eqn:K; [|reflexivity]. apply known_digit in K as (n & Hn & ->). now destruct (N n Hn). }
  rewrite (parse_shape sh "parent[" (x ++ "," ++ y)), (parse_shape sh "parent[" y); try assumption; try reflexivity; try apply lc_prefix7.
  2:{ rewrite !no_byte_app, Bx, By. reflexivity. }
  rewrite (remove_none " " y) by exact Sy.
  rewrite (remove_none " " (x ++ "," ++ y)) by (rewrite !no_byte_app, Sx, Sy; reflexivity).
  change (x ++ "," ++ y) with (x ++ String "," y).
  rewrite split1_app by exact Cx. cbn [map]. unfold lvl_shift. cbn [fold_left].
  rewrite (unknown_zero x K). change (Z.of_N 0) with 0%Z. rewrite Z. reflexivity.
Qed.
Print Assumptions C08_exact.
Print Assumptions C08_exact_levels.
Print Assumptions C08_dropped.
Example C08_witness : (forall v, sh_shift shifty_ref 16 v 0 = v) /\
  inh_parts "Parent[eleven, 3,03, 0].manager#USERDN" "eleven, 3,03, 0" "manager" "USERDN" /\
  names_level "eleven, 3,03, 0" 3 /\ names_level "eleven, 3,03, 0" 0 /\ ~ names_level "eleven, 3,03, 0" 1 /\
  exists i, parseInheritance shifty_ref "Parent[eleven, 3,03, 0].manager#USERDN" = IOk i.
Proof.
  split; [intros v; reflexivity|]. split.
  { exists "Parent[". split; [reflexivity|]. split; [reflexivity|]. split; [vm_compute; reflexivity|]. split; [reflexivity|].
    left. apply identifier_iff. reflexivity. }
  split; [vm_compute; tauto|]. split; [vm_compute; tauto|]. split.
  - unfold names_level. vm_compute. intuition discriminate.
  - eexists. vm_compute. reflexivity.
Qed.
