(* Theorems for C43-C45 (misc.go helpers used everywhere). *)
From Coq Require Import String Ascii List PeanoNat NArith Bool Lia.
From Verif Require Import GoStr GoStrFacts MMisc SMisc PMisc.
Import ListNotations.
Open Scope string_scope.

(* C43: ASCII text is trimmed and its words are joined by single spaces ... *)
Theorem C43_words : forall s, is_ascii s = true ->
  condenseWHSP s = join " " (words (trim_space s)).
Proof. exact condense_words. Qed.
(* ... so condensing twice is condensing once ... *)
Theorem C43_idempotent_partial : forall s, is_ascii s = true ->
  condenseWHSP (condenseWHSP s) = condenseWHSP s.
Proof. exact condense_idem. Qed.
(* ... and everything else is kept, in order. *)
Theorem C43_kept_partial : forall s, is_ascii s = true -> solid (condenseWHSP s) = solid s.
Proof. exact condense_solid. Qed.
(* no white space at the ends and no two adjacent blanks: TBlank.v, for all text *)
(* Missing from the _partial theorems: text with non-ASCII bytes.  There the
   claim is false: each such byte is re-encoded, so condensing changes the text
   and twice is not once. *)
Theorem C43_idempotent_refuted :
  ~ (forall s, condenseWHSP (condenseWHSP s) = condenseWHSP s).
Proof. intros H. specialize (H (bytes [195; 169]%N)). vm_compute in H. discriminate H. Qed.
Theorem C43_kept_refuted : ~ (forall s, solid (condenseWHSP s) = solid s).
Proof. intros H. specialize (H (bytes [195; 169]%N)). vm_compute in H. discriminate H. Qed.
Print Assumptions C43_words.
Print Assumptions C43_idempotent_partial.
Print Assumptions C43_kept_partial.
Print Assumptions C43_idempotent_refuted.
Print Assumptions C43_kept_refuted.
Example C43_witness :
  let s := "  limit   access" ++ String "010" (String "009" "now ") in
  is_ascii s = true /\ condenseWHSP s = "limit access now".
Proof. split; reflexivity. Qed.

(* C44 *)
Theorem C44_unquote_quoted : forall q s q', is_quote q = true -> is_quote q' = true -> s <> "" ->
  unquote (String q (s ++ String q' "")) = s.
Proof. exact unquote_quoted. Qed.
Theorem C44_unquote_plain : forall s,
  (forall c, first_byte s = Some c -> is_quote c = false) ->
  (forall c, last_byte s = Some c -> is_quote c = false) -> unquote s = s.
Proof. exact unquote_plain. Qed.
(* The empty text is the exception: its quotes stay. *)
Theorem C44_empty_kept : forall q q', unquote (String q (String q' "")) = String q (String q' "").
Proof. reflexivity. Qed.
Print Assumptions C44_unquote_quoted.
Print Assumptions C44_unquote_plain.
Print Assumptions C44_empty_kept.
Example C44_witness : unquote """cn""" = "cn" /\ unquote "'a b'" = "a b" /\ unquote "cn" = "cn".
Proof. repeat split. Qed.

(* C45: [HInst t] is an instance printing t (None: zero value or no text). *)
Definition prints (x : hashable) (s : string) : Prop :=
  x = HStr s \/ (x = HInst (Some s) /\ s <> "").
Lemma prints_hash dg x s : prints x s -> hashInstance dg x = Some (dg s).
Proof.
  intros [->|[-> H]]; [easy|]. cbn. destruct s; [easy|]. reflexivity.
Qed.
Lemma hash_prints dg x h : hashInstance dg x = Some h -> exists s, prints x s /\ h = dg s.
Proof.
  destruct x as [s|[s|]]; cbn; try discriminate.
  - intros H. injection H as <-. exists s. split; [now left|easy].
  - destruct s; cbn; [discriminate|]. intros H. injection H as <-.
    eexists. split; [right; split; [reflexivity|discriminate]|easy].
Qed.
Theorem C45_exact : forall dg x y,
  compareHashInstance dg x y = true <-> exists s t, prints x s /\ prints y t /\ dg s = dg t.
Proof.
  intros dg x y. unfold compareHashInstance. split.
  - destruct (hashInstance dg x) as [h|] eqn:E; [|discriminate].
    destruct (hashInstance dg y) as [h'|] eqn:E'; [|discriminate]. intros H. apply String.eqb_eq in H as ->.
    apply hash_prints in E as (s & A & ->), E' as (t & B & E'). now exists s, t.
  - intros (s & t & A & B & E). rewrite (prints_hash dg x s A), (prints_hash dg y t B), E. apply String.eqb_refl.
Qed.
Theorem C45_symmetric : forall dg x y, compareHashInstance dg x y = compareHashInstance dg y x.
Proof.
  intros dg x y. apply eq_true_iff_eq. rewrite !C45_exact. firstorder.
Qed.
Theorem C45_transitive : forall dg x y z,
  compareHashInstance dg x y = true -> compareHashInstance dg y z = true ->
  compareHashInstance dg x z = true.
Proof.
  intros dg x y z. unfold compareHashInstance.
  destruct (hashInstance dg x), (hashInstance dg y), (hashInstance dg z); try discriminate.
  intros A B. apply String.eqb_eq in A, B. apply String.eqb_eq. congruence.
Qed.
Theorem C45_reflexive : forall dg x s, prints x s -> compareHashInstance dg x x = true.
Proof. intros dg x s H. apply C45_exact. now exists s, s. Qed.
Theorem C45_equal_text : forall dg x y s, prints x s -> prints y s -> compareHashInstance dg x y = true.
Proof. intros dg x y s A B. apply C45_exact. now exists s, s. Qed.
Theorem C45_unequal_text : forall dg x y s t, prints x s -> prints y t -> dg s <> dg t ->
  compareHashInstance dg x y = false.
Proof.
  intros dg x y s t A B N. unfold compareHashInstance.
  rewrite (prints_hash dg x s A), (prints_hash dg y t B). now apply String.eqb_neq.
Qed.
Print Assumptions C45_exact.
Print Assumptions C45_symmetric.
Print Assumptions C45_transitive.
Print Assumptions C45_reflexive.
Print Assumptions C45_equal_text.
Print Assumptions C45_unequal_text.
Example C45_witness : prints (HInst (Some "allow(read)")) "allow(read)" /\ prints (HStr "") "" /\
  compareHashInstance (fun s => s) (HInst (Some "a")) (HStr "a") = true /\
  compareHashInstance (fun s => s) (HInst None) (HInst None) = false.
Proof. repeat split; [right; split; congruence|now left]. Qed.
