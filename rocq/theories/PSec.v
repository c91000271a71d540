(* Lemmas for C14-C16. *)
From Coq Require Import String Ascii List PeanoNat NArith ZArith Bool Permutation Lia.
From Verif Require Import GoStr GoStrFacts MMisc MSec SSec PRights PKw PTime.
Import ListNotations.
Open Scope string_scope.

Arguments lc : simpl never.
Arguments atoi : simpl never.

(* the number an SSF value stands for *)
Definition ssf_num (r : ssfv) : Z :=
  match r with Some (Some v) => (Z.of_N v + 1)%Z | _ => 0%Z end.
Definition ssf_wf (r : ssfv) : Prop :=
  match r with Some (Some v) => (v < 256)%N | _ => True end.

Lemma set_int_num z : ssf_num (Some (ssf_set_int z)) = clamp z /\ ssf_wf (Some (ssf_set_int z)).
Proof.
  unfold ssf_set_int, clamp. destruct (Z.ltb_spec 256 z).
  - split; [cbn; lia|reflexivity].
  - destruct (Z.leb_spec z 0); [split; [cbn; lia|exact I]|].
    rewrite Z.mod_small by lia. cbn [ssf_num ssf_wf]. lia.
Qed.
Lemma set_inner_num cur a z : asked a = Some z ->
  ssf_num (Some (ssf_set_inner cur a)) = z /\ ssf_wf (Some (ssf_set_inner cur a)).
Proof.
  destruct a as [|s|i|]; cbn [asked ssf_set_inner]; intros E; try discriminate.
  - injection E as <-. split; [easy|exact I].
  - unfold stringToIntSSF. cbn [strInSlice]. rewrite !orb_false_r.
    destruct (String.eqb (lc s) "full" || String.eqb (lc s) "max"); [injection E as <-; split; reflexivity|].
    destruct (String.eqb (lc s) "none" || String.eqb (lc s) "off"); [injection E as <-; split; [reflexivity|exact I]|].
    injection E as <-. destruct (Z.eqb_spec (fst (atoi s)) 0) as [->|]; [split; [reflexivity|exact I]|apply set_int_num].
  - injection E as <-. apply set_int_num.
Qed.
Lemma ssf_run h : forall r, (r <> None \/ (forall a, In a h -> asked a <> None)) -> ssf_wf r ->
  ssf_num (fold_left ssf_set h r) = factor_after (ssf_num r) h /\ ssf_wf (fold_left ssf_set h r).
Proof.
  induction h as [|a h IH]; intros r Hr W; [easy|]. cbn [fold_left factor_after].
  destruct (asked a) as [z|] eqn:E.
  - destruct (set_inner_num (match r with None => Some 0%N | Some c => c end) a z E) as [A B].
    rewrite <- A. apply IH; [left; discriminate|exact B].
  - destruct r as [c|].
    + destruct a; cbn in E; try discriminate.
      * destruct (String.eqb (lc s) "full" || String.eqb (lc s) "max"); [discriminate|].
        destruct (String.eqb (lc s) "none" || String.eqb (lc s) "off"); discriminate.
      * apply IH; [left; discriminate|exact W].
    + exfalso. destruct Hr as [H|H]; [easy|]. apply (H a); [now left|easy].
Qed.
Lemma ssf_string_num r : ssf_wf r -> ssf_string r = itoa (Z.to_N (ssf_num r)) /\ (0 <= ssf_num r <= 256)%Z.
Proof.
  destruct r as [[v|]|]; cbn [ssf_wf ssf_num ssf_string]; intros H; [|split; [reflexivity|lia]..].
  split; [|lia]. f_equal. lia.
Qed.
Lemma itoa_read n : (n <= 256)%N -> ssf_string (SSF [SStr (itoa n)]) = itoa n.
Proof.
  intros H. apply String.eqb_eq.
  exact (upto_forall (fun n => String.eqb (ssf_string (SSF [SStr (itoa n)])) (itoa n)) 257
    ltac:(vm_compute; reflexivity) n ltac:(lia)).
Qed.
Lemma asked_some s : exists z, asked (SStr s) = Some z.
Proof.
  cbn [asked]. destruct (_ || _); [eauto|]. destruct (_ || _); eauto.
Qed.
Lemma ssf_accept v : (exists x, assertBindSSF [v] = Some x) <->
  exists n, (n <= 256)%N /\ unquote (condenseWHSP v) = itoa n.
Proof.
  cbn [assertBindSSF]. set (u := unquote (condenseWHSP v)). split.
  - intros [x H]. destruct (String.eqb_spec (ssf_string (SSF [SStr u])) u) as [E|]; [|discriminate].
    destruct (asked_some u) as [z Hz]. destruct (set_inner_num None _ z Hz) as [A B].
    destruct (ssf_string_num _ B) as [C D]. exists (Z.to_N (ssf_num (SSF [SStr u]))).
    split; [change (ssf_num (SSF [SStr u])) with (ssf_num (Some (ssf_set_inner None (SStr u)))); lia|].
    rewrite <- E at 1. exact C.
  - intros (n & Hn & ->). rewrite itoa_read, String.eqb_refl by easy. eauto.
Qed.

(* ---- authentication methods ---- *)
Definition all_authm := [MNone; MSimple; MSSL; MSASL; MExternal; MDigest; MGSSAPI].
Definition low_name (m : authm) : string :=
  match m with
  | MNone => "none" | MSimple => "simple" | MSSL => "ssl" | MSASL => "sasl"
  | MExternal => "sasl EXTERNAL" | MDigest => "sasl DIGEST-MD5" | MGSSAPI => "sasl GSSAPI"
  end.
Lemma low_name_fold m : fold_key (low_name m) = fold_key (authm_name m).
Proof. now destruct m. Qed.
Lemma auth_name_inj m m' : fold_key (authm_name m) = fold_key (authm_name m') -> m = m'.
Proof. destruct m, m'; intros H; try reflexivity; discriminate H. Qed.
Lemma authm_const_inj m m' : authm_const m = authm_const m' -> m = m'.
Proof. destruct m, m'; intros H; try reflexivity; discriminate H. Qed.
Lemma authNames_in t : Permutation t authNames ->
  forall k v, In (k, v) t <-> exists m, k = low_name m /\ v = authm_const m.
Proof.
  intros P k v.
  assert (E : In (k, v) t <-> In (k, v) authNames).
  { split; apply Permutation_in; [easy|now apply Permutation_sym]. }
  rewrite E. unfold authNames. cbn [In]. split.
  - intros H. repeat destruct H as [H|H]; try contradiction; injection H as <- <-;
    [exists MNone|exists MSimple|exists MSSL|exists MSASL|exists MExternal|exists MDigest|exists MGSSAPI]; easy.
  - intros (m & -> & ->). destruct m; cbn; tauto.
Qed.
Lemma auth_match_cases (t : list (string * N)) s :
  (exists k, In (k, auth_match_str t s) t /\ eqfold k s = true) \/
  ((forall k v, In (k, v) t -> eqfold k s = false) /\ auth_match_str t s = 1%N).
Proof.
  induction t as [|[k v] t IH]; [right; split; [intros ? ? []|easy]|]. cbn [auth_match_str].
  destruct (eqfold k s) eqn:E; [left; exists k; split; [now left|easy]|].
  destruct IH as [(k' & Hi & H)|[H ->]]; [left; exists k'; split; [now right|easy]|right].
  split; [|easy]. intros k' v' [H'|H']; [injection H' as <- <-; easy|eauto].
Qed.
Lemma auth_match_spec t : Permutation t authNames -> forall s,
  (exists m, names_auth s m /\ auth_match_str t s = authm_const m) \/
  ((forall m, ~ names_auth s m) /\ auth_match_str t s = 1%N).
Proof.
  intros P s. destruct (auth_match_cases t s) as [(k & Hi & E)|[H E]].
  - left. apply (authNames_in t P) in Hi as (m & -> & Hm). exists m. split; [|easy].
    unfold names_auth. apply eqfold_iff in E. apply eqfold_iff. rewrite <- low_name_fold. congruence.
  - right. split; [|easy]. intros m Hm. unfold names_auth in Hm. apply eqfold_iff in Hm.
    assert (X := H (low_name m) (authm_const m)). rewrite (proj2 (eqfold_iff _ _)) in X.
    + assert (true = false) by (apply X, (authNames_in t P); now exists m). discriminate.
    + now rewrite low_name_fold.
Qed.
Lemma auth_string_spec t low m : Permutation t authNames ->
  auth_string_in t low (authm_const m) = foldAuthenticationMethod low (low_name m).
Proof.
  intros P. assert (IN := authNames_in t P). clear P.
  assert (H : In (low_name m, authm_const m) t) by (apply IN; now exists m).
  assert (SUB : forall k v, In (k, v) t -> exists m, k = low_name m /\ v = authm_const m) by (intros; now apply IN).
  clear IN. induction t as [|[k v] t IH]; [contradiction|]. cbn [auth_string_in].
  destruct (SUB k v) as (m' & -> & ->); [now left|].
  destruct (N.eqb_spec (authm_const m') (authm_const m)) as [E|E].
  - now apply authm_const_inj in E as ->.
  - destruct H as [H|H]; [injection H as ? ?; congruence|]. apply IH; [easy|]. intros. apply SUB. now right.
Qed.
Lemma auth_string_fold low m : eqfold (foldAuthenticationMethod low (low_name m)) (authm_name m) = true.
Proof. destruct low, m; reflexivity. Qed.

(* ---- scopes ---- *)
Lemma scope_cases s : (exists c, names_scope s c /\ strToScope s = scope_const c) \/
  ((forall c, ~ names_scope s c) /\ strToScope s = 0%N).
Proof.
  unfold names_scope, strToScope.
  repeat match goal with
  | |- context [if strInSlice ?a ?l then _ else _] =>
      let E := fresh "E" in destruct (strInSlice a l) eqn:E
  end.
  1: left; exists ScBase. 2: left; exists ScOne. 3: left; exists ScSub. 4: left; exists ScChildren.
  5: { right. split; [|easy]. intros c H. apply strInSlice_in in H. destruct c; cbn [scope_names] in H; congruence. }
  all: split; [|reflexivity]; apply strInSlice_in; assumption.
Qed.
Lemma names_scope_inj s c c' : names_scope s c -> names_scope s c' -> c = c'.
Proof.
  unfold names_scope. generalize (lc s). intros l H H'.
  destruct c, c'; try reflexivity; exfalso; cbn [scope_names In] in *;
    repeat destruct H as [<-|H]; try contradiction;
    repeat destruct H' as [H'|H']; try contradiction; discriminate H'.
Qed.
Lemma scope_iff s : (forall c, strToScope s = scope_const c <-> names_scope s c) /\
  (strToScope s = 0%N <-> forall c, ~ names_scope s c).
Proof.
  destruct (scope_cases s) as [(c & H & ->)|[H ->]]; split.
  - intros c'. split; intros H'.
    + assert (c = c') as <- by (destruct c, c'; congruence || discriminate H'). easy.
    + f_equal. now apply (names_scope_inj s).
  - split; [destruct c; discriminate|]. intros H'. now apply H' in H.
  - intros c. split; [destruct c; discriminate|]. intros H'. now apply H in H'.
  - split; easy.
Qed.
