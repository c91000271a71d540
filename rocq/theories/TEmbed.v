(* Theorems for C127 (the attribute part of an inheritance, reached through it). *)
From Coq Require Import String Ascii List PeanoNat NArith ZArith Bool Lia.
From Verif Require Import GoStr GoStrFacts Shifty MMisc MKw MAttr MLevels MHeap SAttr PRights PKw PMisc PAttr THeap MEmbed SEmbed.
Import ListNotations.
Open Scope string_scope.

(* ---- pointers stay inside the heaps ---- *)
Definition ewf (s : emst) : Prop :=
  (forall x l, snd (em_avar s x) = Some l -> (l < List.length (em_pairs s))%nat) /\
  (forall c l, In c (em_inhs s) -> snd (snd c) = Some l -> (l < List.length (em_pairs s))%nat) /\
  (forall i l, em_ivar s i = Some l -> (l < List.length (em_inhs s))%nat).
Lemma ewf_start : ewf em_start.
Proof. repeat split; cbn; easy. Qed.
Lemma In_wr {A} (h : list A) : forall l c x, In x (wr h l c) -> In x h \/ x = c.
Proof.
  induction h as [|y h IH]; intros [|l] c x; cbn [wr In]; [easy|easy| |].
  - intros [<-|H]; [now right|left; now right].
  - intros [<-|H]; [left; now left|]. destruct (IH _ _ _ H) as [?| ->]; [left; now right|now right].
Qed.
Lemma place_wf s pl r : ewf s -> place_get s pl = Some r -> forall l, snd r = Some l -> (l < List.length (em_pairs s))%nat.
Proof.
  intros (A & B & C) G l E. destruct pl as [x|i]; cbn [place_get] in G.
  - injection G as <-. now apply (A x).
  - destruct (em_ivar s i) as [k|]; cbn [rd] in G; [|discriminate].
    destruct (nth_error (em_inhs s) k) as [[lv r']|] eqn:N; [|discriminate]. injection G as <-.
    apply (B (lv, r')); [now apply nth_error_In in N|exact E].
Qed.
Lemma put_wf s pl r : ewf s -> (forall l, snd r = Some l -> (l < List.length (em_pairs s))%nat) -> ewf (place_put s pl r).
Proof.
  intros (A & B & C) R. destruct pl as [x|i]; cbn [place_put].
  - repeat split; cbn [em_pairs em_inhs em_avar em_ivar]; [|exact B|exact C].
    intros y l. unfold upd. destruct (Nat.eqb y x); [apply R|apply A].
  - destruct (em_ivar s i) as [k|]; [|now repeat split]. destruct (nth_error (em_inhs s) k) as [[lv r']|]; [|now repeat split].
    repeat split; cbn [em_pairs em_inhs em_avar em_ivar]; [exact A| |].
    + intros c l H. destruct (In_wr _ _ _ _ H) as [H'| ->]; [now apply B|cbn; apply R].
    + intros j l H. rewrite wr_len. now apply (C j).
Qed.
Lemma grow_wf s ps : ewf s -> (List.length (em_pairs s) <= List.length ps)%nat -> ewf (with_pairs s ps).
Proof.
  intros (A & B & C) L. repeat split; cbn [with_pairs em_pairs em_inhs em_avar em_ivar]; [| |exact C].
  - intros x l H. specialize (A x l H). lia.
  - intros c l H E. specialize (B c l H E). lia.
Qed.
Lemma set_len ps r xs ps' r' : ref_set ps r xs = (ps', r') -> (forall l, snd r = Some l -> (l < List.length ps)%nat) ->
  (List.length ps <= List.length ps')%nat /\ (forall l, snd r' = Some l -> (l < List.length ps')%nat).
Proof.
  unfold ref_set. intros H R. destruct r as [k p]. cbn [fst snd] in *. destruct (k =? 0)%N.
  - injection H as <- <-. rewrite app_length. cbn. split; [lia|]. intros l [= <-]. lia.
  - destruct p as [l|].
    + destruct (nth_error ps l); injection H as <- <-; rewrite ?wr_len; split; auto.
    + injection H as <- <-. rewrite app_length. cbn. split; [lia|]. intros l [= <-]. lia.
Qed.
Lemma parse_len ps r raw bkw ps' r' : ref_parse ps r raw bkw = (ps', r') -> (forall l, snd r = Some l -> (l < List.length ps)%nat) ->
  (List.length ps <= List.length ps')%nat /\ (forall l, snd r' = Some l -> (l < List.length ps')%nat).
Proof.
  unfold ref_parse. intros H R. destruct (abtv_parse raw bkw) as [[k [p|]]|]; injection H as <- <-.
  - rewrite app_length. cbn. split; [lia|]. intros l [= <-]. lia.
  - split; auto.
  - split; auto.
Qed.
Lemma shift_len sh s p on xs h q : shift_ref sh s p on xs = (h, q) -> ewf s -> (forall l, p = Some l -> (l < List.length (em_inhs s))%nat) ->
  (List.length (em_inhs s) <= List.length h)%nat /\ (forall l, q = Some l -> (l < List.length h)%nat) /\
  (forall c l, In c h -> snd (snd c) = Some l -> (l < List.length (em_pairs s))%nat).
Proof.
  unfold shift_ref. intros H (_ & B & _) P. destruct (inh_isZero (inh_at s p)).
  - destruct on; injection H as <- <-; [|auto]. rewrite app_length. cbn. repeat split; [lia|intros l [= <-]; lia|].
    intros c l I. apply in_app_or in I as [I|[<-|[]]]; [now apply B|discriminate].
  - destruct p as [l|]; [|injection H as <- <-; auto].
    destruct (nth_error (em_inhs s) l) as [[lv r]|] eqn:N; injection H as <- <-; [|auto].
    rewrite wr_len. repeat split; [lia|exact P|]. intros c k I E. apply In_wr in I as [I| ->]; [now apply (B c)|].
    apply (B (lv, r)); [now apply nth_error_In in N|exact E].
Qed.
Lemma step_wf sh s c s' : ewf s -> emstep sh s c = Some s' -> ewf s'.
Proof.
  intros W H. destruct c as [x kw xs|i pl lv|i|i j|z i on xs|pl xs|pl raw bkw|pl k|pl pl']; cbn [emstep] in H.
  - destruct W as (A & B & C). destruct (ab_pair (ABTV kw xs)); injection H as <-; repeat split; cbn [em_pairs em_inhs em_avar em_ivar]; try exact C; try exact B.
    + intros y l. rewrite app_length. cbn. unfold upd. destruct (Nat.eqb y x); cbn; [intros [= <-]; lia|].
      intros E. specialize (A y l E). lia.
    + intros c l I E. rewrite app_length. specialize (B c l I E). cbn. lia.
    + intros y l. unfold upd. destruct (Nat.eqb y x); cbn; [discriminate|apply A].
  - destruct (place_get s pl) as [r|] eqn:G; [|discriminate]. injection H as <-.
    assert (R := place_wf s pl r W G). destruct W as (A & B & C). repeat split; cbn [em_pairs em_inhs em_avar em_ivar]; [exact A| |].
    + intros c l I. apply in_app_or in I as [I|[<-|[]]]; [now apply B|apply R].
    + intros j l. rewrite app_length. cbn. unfold upd. destruct (Nat.eqb j i); [intros [= <-]; lia|].
      intros E. specialize (C j l E). lia.
  - injection H as <-. destruct W as (A & B & C). repeat split; cbn [em_pairs em_inhs em_avar em_ivar]; [exact A|exact B|].
    intros j l. unfold upd. destruct (Nat.eqb j i); [discriminate|apply C].
  - injection H as <-. destruct W as (A & B & C). repeat split; cbn [em_pairs em_inhs em_avar em_ivar]; [exact A|exact B|].
    intros k l. unfold upd. destruct (Nat.eqb k i); apply C.
  - destruct (shift_ref sh s (em_ivar s i) on xs) as [h q] eqn:E. injection H as <-.
    destruct (shift_len _ _ _ _ _ _ _ E W (proj2 (proj2 W) i)) as (L & Q & I). destruct W as (A & B & C).
    repeat split; cbn [em_pairs em_inhs em_avar em_ivar]; [exact A|exact I|].
    intros j l. destruct z as [z|]; [unfold upd; destruct (Nat.eqb j z); [apply Q|]|]; intros E'; specialize (C j l E'); lia.
  - destruct (place_get s pl) as [r|] eqn:G; [|discriminate]. destruct (ref_set (em_pairs s) r xs) as [ps r'] eqn:E. injection H as <-.
    destruct (set_len _ _ _ _ _ E (place_wf s pl r W G)) as [L R]. apply put_wf; [now apply grow_wf|exact R].
  - destruct (place_get s pl) as [r|] eqn:G; [|discriminate]. destruct (ref_parse (em_pairs s) r raw bkw) as [ps r'] eqn:E. injection H as <-.
    destruct (parse_len _ _ _ _ _ _ E (place_wf s pl r W G)) as [L R]. apply put_wf; [now apply grow_wf|exact R].
  - destruct (place_get s pl) as [r|] eqn:G; [|discriminate]. injection H as <-. apply put_wf; [exact W|]. apply (place_wf s pl r W G).
  - destruct (place_get s pl') as [r|] eqn:G; [|discriminate]. destruct (place_get s pl); [|discriminate]. injection H as <-.
    apply put_wf; [exact W|]. apply (place_wf s pl' r W G).
Qed.
Lemma run_wf sh p : forall s s', ewf s -> emrun sh s p = Some s' -> ewf s'.
Proof.
  induction p as [|c p IH]; intros s s' W H; cbn [emrun] in H; [now injection H as <-|].
  destruct (emstep sh s c) as [s1|] eqn:E; [|discriminate]. apply (IH s1); [now apply (step_wf sh s c)|exact H].
Qed.
Lemma run_app sh p q : forall s, emrun sh s (p ++ q)%list = match emrun sh s p with Some s' => emrun sh s' q | None => None end.
Proof. induction p as [|c p IH]; intros s; cbn [emrun app]; [easy|]. destruct (emstep sh s c); auto. Qed.

(* ---- C127: the attribute part does not notice Shift and Unshift ---- *)
Definition alike (s s' : emst) : Prop :=
  em_pairs s = em_pairs s' /\ em_avar s = em_avar s' /\ em_ivar s = em_ivar s' /\ map snd (em_inhs s) = map snd (em_inhs s').
Lemma nth_snd (h h' : list (N * aref)) l : map snd h = map snd h' ->
  option_map snd (nth_error h l) = option_map snd (nth_error h' l).
Proof. intros E. rewrite <- !nth_error_map. now rewrite E. Qed.
Lemma alike_get s s' pl : alike s s' -> place_get s pl = place_get s' pl.
Proof.
  intros (A & B & C & D). destruct pl as [x|i]; cbn [place_get]; [now rewrite B|]. rewrite C. destruct (em_ivar s' i) as [l|]; [|easy].
  cbn [rd]. assert (E := nth_snd _ _ l D). destruct (nth_error (em_inhs s) l) as [[]|], (nth_error (em_inhs s') l) as [[]|]; cbn in E; congruence.
Qed.
Lemma alike_part s s' pl : alike s s' -> em_part s pl = em_part s' pl.
Proof. intros A. unfold em_part. rewrite (alike_get s s' pl A). destruct A as (A & _). unfold abtv_at. now rewrite A. Qed.
Lemma alike_zero s s' p : alike s s' -> inh_isZero (inh_at s p) = inh_isZero (inh_at s' p).
Proof.
  intros (A & B & C & D). destruct p as [l|]; [|easy]. unfold inh_at. cbn [rd]. assert (E := nth_snd _ _ l D).
  destruct (nth_error (em_inhs s) l) as [[]|], (nth_error (em_inhs s') l) as [[]|]; cbn in E; try congruence.
  injection E as ->. cbn [inh_isZero in_abtv]. unfold abtv_at. now rewrite A.
Qed.
Lemma map_wr (h : list (N * aref)) : forall l c, map snd (wr h l c) = wr (map snd h) l (snd c).
Proof. induction h as [|x h IH]; intros [|l] c; cbn; f_equal; auto. Qed.
Lemma wr_id {A} (h : list A) : forall l c, nth_error h l = Some c -> wr h l c = h.
Proof. induction h as [|x h IH]; intros [|l] c E; cbn in *; [easy|easy|now injection E as ->|]. f_equal. now apply IH. Qed.
Lemma alike_put s s' pl r : alike s s' -> alike (place_put s pl r) (place_put s' pl r).
Proof.
  intros (A & B & C & D). destruct pl as [x|i]; cbn [place_put].
  - unfold alike. cbn [em_pairs em_inhs em_avar em_ivar]. now rewrite A, B, C.
  - rewrite C. destruct (em_ivar s' i) as [l|]; [|easy]. assert (E := nth_snd _ _ l D).
    destruct (nth_error (em_inhs s) l) as [[]|], (nth_error (em_inhs s') l) as [[]|]; cbn in E; try congruence; [|easy].
    unfold alike. cbn [em_pairs em_inhs em_avar em_ivar]. rewrite !map_wr, D. cbn [snd]. now rewrite A, B.
Qed.
Lemma alike_pairs s s' ps : alike s s' -> alike (with_pairs s ps) (with_pairs s' ps).
Proof. intros (A & B & C & D). unfold alike, with_pairs. cbn [em_pairs em_inhs em_avar em_ivar]. now rewrite B, C. Qed.
Lemma shift_snd sh s p on xs h q : shift_ref sh s p on xs = (h, q) -> (on = true -> inh_isZero (inh_at s p) = false) ->
  map snd h = map snd (em_inhs s) /\ q = p.
Proof.
  unfold shift_ref. intros H L. destruct (inh_isZero (inh_at s p)).
  - destruct on; [now specialize (L eq_refl)|]. now injection H as <- <-.
  - destruct p as [l|]; [|now injection H as <- <-]. destruct (nth_error (em_inhs s) l) as [[lv r]|] eqn:N; injection H as <- <-; [|easy].
    split; [|easy]. rewrite map_wr. apply wr_id. rewrite nth_error_map, N. reflexivity.
Qed.
Lemma alike_step sh s t c : alike s t ->
  match c with EShift _ i true _ => inh_isZero (em_inh s i) = false | _ => True end ->
  match emstep sh s c, emrun sh t (quiet c) with
  | Some s', Some t' => alike s' t'
  | None, None => True
  | _, _ => False
  end.
Proof.
  intros A L. destruct c as [x kw xs|i pl lv|i|i j|z i on xs|pl xs|pl raw bkw|pl k|pl pl']; cbn [quiet emrun emstep].
  - destruct A as (A & B & C & D). destruct (ab_pair (ABTV kw xs)); unfold alike; cbn [em_pairs em_inhs em_avar em_ivar]; now rewrite A, B, C.
  - rewrite (alike_get s t pl A). destruct (place_get t pl); [|easy]. destruct A as (A & B & C & D).
    assert (Ln : List.length (em_inhs s) = List.length (em_inhs t)) by (rewrite <- (map_length snd), D; apply map_length).
    unfold alike; cbn [em_pairs em_inhs em_avar em_ivar]. rewrite !map_app, A, B, C, D, Ln. easy.
  - destruct A as (A & B & C & D). unfold alike; cbn [em_pairs em_inhs em_avar em_ivar]. now rewrite A, B, C.
  - destruct A as (A & B & C & D). unfold alike; cbn [em_pairs em_inhs em_avar em_ivar]. now rewrite A, B, C.
  - destruct (shift_ref sh s (em_ivar s i) on xs) as [h q] eqn:E.
    destruct (shift_snd sh s _ _ _ _ _ E) as [M ->]. { intros ->. exact L. }
    destruct A as (A & B & C & D). destruct z as [z|]; cbn [quiet emrun emstep]; unfold alike; cbn [em_pairs em_inhs em_avar em_ivar]; now rewrite A, B, C, M.
  - rewrite (alike_get s t pl A). destruct (place_get t pl) as [r|]; [|easy]. rewrite (proj1 A). destruct (ref_set (em_pairs t) r xs) as [ps r'].
    apply alike_put. now apply alike_pairs.
  - rewrite (alike_get s t pl A). destruct (place_get t pl) as [r|]; [|easy]. rewrite (proj1 A). destruct (ref_parse (em_pairs t) r raw bkw) as [ps r'].
    apply alike_put. now apply alike_pairs.
  - rewrite (alike_get s t pl A). destruct (place_get t pl) as [r|]; [|easy]. now apply alike_put.
  - rewrite !(alike_get s t _ A). destruct (place_get t pl') as [r|]; [|easy]. destruct (place_get t pl); [|easy]. now apply alike_put.
Qed.
Lemma alike_run sh p : forall s t s', alike s t -> live sh s p -> emrun sh s p = Some s' ->
  exists t', emrun sh t (no_shifts p) = Some t' /\ alike s' t'.
Proof.
  induction p as [|c p IH]; intros s t s' A L H; cbn [emrun live] in *; [injection H as <-; now exists t|].
  destruct L as [L0 L1]. assert (S := alike_step sh s t c A L0). destruct (emstep sh s c) as [s1|]; [|discriminate].
  destruct (emrun sh t (quiet c)) as [t1|] eqn:Q; [|easy]. destruct (IH s1 t1 s' S L1 H) as (t' & R & A').
  exists t'. split; [|exact A']. unfold no_shifts. cbn [flat_map]. rewrite run_app, Q. exact R.
Qed.
(* For every program, whose Shift calls are on inheritances that have an attribute
   part: taking all Shift and Unshift calls out changes no attribute part anywhere,
   whether in a variable or in an inheritance. *)
Theorem C127_attribute : forall sh p s, live sh em_start p -> emrun sh em_start p = Some s ->
  exists s', emrun sh em_start (no_shifts p) = Some s' /\ forall pl, em_part s pl = em_part s' pl.
Proof.
  intros sh p s L H. destruct (alike_run sh p em_start em_start s) as (t & R & A); [now repeat split|exact L|exact H|].
  exists t. split; [exact R|]. intros pl. now apply alike_part.
Qed.

(* ---- C127: the levels do not notice the rest ---- *)
Definition owns (s : emst) (i l : nat) (v : N) : Prop :=
  em_ivar s i = Some l /\ (forall j, j <> i -> em_ivar s j <> Some l) /\ exists r, nth_error (em_inhs s) l = Some (v, r).
Lemma nth_wr_same {A} (h : list A) l c x : nth_error h l = Some x -> nth_error (wr h l c) l = Some c.
Proof. intros E. apply (wr_same h l c). apply nth_error_Some. congruence. Qed.
Lemma nth_wr_other {A} (h : list A) l k c : k <> l -> nth_error (wr h l c) k = nth_error h k.
Proof. intros E. exact (wr_other h l k c E). Qed.
Lemma put_owns s pl r i l v : owns s i l v -> owns (place_put s pl r) i l v.
Proof.
  intros (A & B & r0 & C). destruct pl as [x|j]; cbn [place_put]; [repeat split; cbn; eauto|].
  destruct (em_ivar s j) as [k|] eqn:K; [|repeat split; eauto].
  destruct (nth_error (em_inhs s) k) as [[lv r']|] eqn:N; [|repeat split; eauto].
  repeat split; cbn [em_ivar em_inhs]; [exact A|exact B|]. destruct (Nat.eq_dec l k) as [->|D].
  - rewrite C in N. injection N as <- <-. exists r. eapply nth_wr_same, C.
  - exists r0. now rewrite nth_wr_other.
Qed.
Lemma pairs_owns s ps i l v : owns s i l v -> owns (with_pairs s ps) i l v.
Proof. intros (A & B & C). now repeat split. Qed.
Lemma owns_step sh s c s' i l v : ewf s -> owns s i l v -> apart i c -> inh_isZero (em_inh s i) = false -> emstep sh s c = Some s' ->
  exists v', owns s' i l v' /\ v' = match shift_of i c with [IShift xs] => lvl_shift sh v xs | [IUnshift xs] => lvl_unshift sh v xs | _ => v end.
Proof.
  intros W O P Z H. assert (O' := O). destruct O as (A & B & r & C). assert (Ll : (l < List.length (em_inhs s))%nat) by (apply nth_error_Some; congruence).
  destruct c as [x kw xs|j pl lv|j|j k|z j on xs|pl xs|pl raw bkw|pl k|pl pl']; cbn [emstep shift_of apart] in *.
  - exists v. split; [|easy]. destruct (ab_pair (ABTV kw xs)); injection H as <-; repeat split; cbn; eauto.
  - exists v. split; [|easy]. destruct (place_get s pl) as [q|]; [|discriminate]. injection H as <-. repeat split; cbn [em_ivar em_inhs].
    + now rewrite upd_other by congruence.
    + intros k K. unfold upd. destruct (Nat.eqb k j); [intros [= E]; lia|now apply B].
    + exists r. now rewrite nth_error_app1.
  - exists v. split; [|easy]. injection H as <-. repeat split; cbn [em_ivar em_inhs]; [now rewrite upd_other by congruence| |eauto].
    intros k K. unfold upd. destruct (Nat.eqb k j); [easy|now apply B].
  - exists v. split; [|easy]. destruct P as [P1 P2]. injection H as <-. repeat split; cbn [em_ivar em_inhs]; [now rewrite upd_other by congruence| |eauto].
    intros m K. unfold upd. destruct (Nat.eqb m j); [now apply B|now apply B].
  - destruct (Nat.eqb_spec j i) as [->|J].
    + unfold shift_ref in H. fold (em_inh s i) in H. rewrite Z, A, C in H.
      exists (if on then lvl_shift sh v xs else lvl_unshift sh v xs). split; [|now destruct on].
      assert (Zi : z = None \/ z = Some i) by (destruct z as [z|]; [right; f_equal; now apply P|now left]).
      destruct Zi as [-> | ->]; injection H as <-; repeat split; cbn [em_ivar em_inhs]; try exact A; try exact B.
      * exists r. eapply nth_wr_same, C.
      * apply upd_same.
      * intros k K. rewrite upd_other by exact K. now apply B.
      * exists r. eapply nth_wr_same, C.
    + exists v. split; [|easy]. destruct (shift_ref sh s (em_ivar s j) on xs) as [h q] eqn:E. injection H as <-.
      assert (F : (exists r, nth_error h l = Some (v, r)) /\ q <> Some l).
      { unfold shift_ref in E. destruct (inh_isZero (inh_at s (em_ivar s j))).
        - destruct on; injection E as <- <-; [|split; [eauto|now apply B]]. split; [exists r; now rewrite nth_error_app1|intros [= E]; lia].
        - destruct (em_ivar s j) as [k|] eqn:K; [|injection E as <- <-; split; eauto; easy].
          assert (k <> l) by (intros ->; now apply (B j)).
          destruct (nth_error (em_inhs s) k) as [[lv' r']|]; injection E as <- <-; (split; [|congruence]); exists r; [now rewrite nth_wr_other by congruence|exact C]. }
      destruct F as [F Q]. repeat split; cbn [em_ivar em_inhs]; [| |exact F].
      * destruct z as [z|]; [|exact A]. rewrite upd_other; [exact A|]. intros <-. apply J, P. reflexivity.
      * intros m M. destruct z as [z|]; [|now apply B]. unfold upd. destruct (Nat.eqb m z); [exact Q|now apply B].
  - exists v. split; [|easy]. destruct (place_get s pl) as [q|]; [|discriminate]. destruct (ref_set (em_pairs s) q xs) as [ps q']. injection H as <-.
    now apply put_owns, pairs_owns.
  - exists v. split; [|easy]. destruct (place_get s pl) as [q|]; [|discriminate]. destruct (ref_parse (em_pairs s) q raw bkw) as [ps q']. injection H as <-.
    now apply put_owns, pairs_owns.
  - exists v. split; [|easy]. destruct (place_get s pl) as [q|]; [|discriminate]. injection H as <-. now apply put_owns.
  - exists v. split; [|easy]. destruct (place_get s pl') as [q|]; [|discriminate]. destruct (place_get s pl); [|discriminate]. injection H as <-. now apply put_owns.
Qed.
Lemma owns_run sh : shifty_ok sh -> forall h s s' i l v g, ewf s -> owns s i l v -> lsmall v ->
  (forall n, (n < 10)%N -> N.testbit v (n + 1) = g n) -> lcalls_ok (shifts i h) ->
  (forall c, In c h -> apart i c) -> always sh (fun s => inh_isZero (em_inh s i) = false) s h -> emrun sh s h = Some s' ->
  inh_isZero (em_inh s' i) = false /\
  exists v', owns s' i l v' /\ lsmall v' /\ forall n, (n < 10)%N -> N.testbit v' (n + 1) = level_in (g n) (shifts i h) n.
Proof.
  intros OK. induction h as [|c h IH]; intros s s' i l v g W O V G LC AP AL H; cbn [emrun always] in *.
  - injection H as <-. split; [apply AL|]. exists v. auto.
  - destruct AL as [Z AL]. destruct (emstep sh s c) as [s1|] eqn:E; [|discriminate].
    destruct (owns_step sh s c s1 i l v W O (AP c (or_introl eq_refl)) Z E) as (v1 & O1 & Ev).
    assert (W1 := step_wf sh s c s1 W E). unfold shifts in LC |- *. cbn [flat_map] in LC |- *. fold (shifts i h) in LC |- *.
    assert (AP' : forall c, In c h -> apart i c) by (intros; apply AP; now right).
    assert (Q : shift_of i c = [] \/ exists cl, shift_of i c = [cl]).
    { destruct c; cbn [shift_of]; auto. destruct (Nat.eqb i0 i); eauto. }
    destruct Q as [Q|[cl Q]]; rewrite Q in *; cbn [app] in *.
    + subst v1. now apply (IH s1 s' i l v g).
    + assert (Hc : forall x, In x (lcall_args cl) -> larg_ok x) by (intros; apply (LC cl); [now left|easy]).
      assert (LC' : lcalls_ok (shifts i h)) by (intros c' x I; apply LC; now right).
      cbn [level_in]. destruct cl as [xs|xs]; cbn [lcall_args is_ishift] in *; subst v1.
      * destruct (lshift_all sh OK xs v V Hc) as [A B].
        apply (IH s1 s' i l (lvl_shift sh v xs) (fun n => if existsb (fun x => lmentions x n) xs then true else g n)); try easy.
        intros n Hn. rewrite B by easy. destruct (existsb _ xs); [easy|now apply G].
      * destruct (lunshift_all sh OK xs v V Hc) as [A B].
        apply (IH s1 s' i l (lvl_unshift sh v xs) (fun n => if existsb (fun x => lmentions x n) xs then false else g n)); try easy.
        intros n Hn. rewrite B by easy. destruct (existsb _ xs); [easy|now apply G].
Qed.
(* For every program up to the statement i := Inherit(pl, lv) and every program h
   after it that does not give that inheritance another name: as long as it keeps
   an attribute part, a level is set exactly when the last Shift or Unshift call on i
   that mentions it was a Shift, whatever Set, Parse and assignments of fields are done. *)
Theorem C127_levels : forall sh, shifty_ok sh -> forall p0 i pl lv h s0 s n x,
  emrun sh em_start (p0 ++ [EInherit i pl lv])%list = Some s0 -> emrun sh s0 h = Some s ->
  (forall c, In c h -> apart i c) -> always sh (fun s => inh_isZero (em_inh s i) = false) s0 h ->
  lcalls_ok (IShift lv :: shifts i h) -> (n < 10)%N ->
  x = LLevel (level_const n) \/ x = LInt (Z.of_N n) \/ x = LStr (digit n) ->
  inh_positive sh (em_inh s i) x = level_in false (IShift lv :: shifts i h) n.
Proof.
  intros sh OK p0 i pl lv h s0 s n x H0 H AP AL LC Hn Hx. rewrite run_app in H0.
  destruct (emrun sh em_start p0) as [s1|] eqn:E; [|discriminate]. assert (W1 := run_wf sh p0 _ _ ewf_start E).
  cbn [emrun] in H0. destruct (emstep sh s1 (EInherit i pl lv)) as [s2|] eqn:E2; [|discriminate]. injection H0 as <-.
  assert (W2 := step_wf sh _ _ _ W1 E2). cbn [emstep] in E2. destruct (place_get s1 pl) as [r|]; [|discriminate].
  injection E2 as <-.
  assert (Hc : forall x, In x lv -> larg_ok x) by (intros; apply (LC (IShift lv)); [now left|easy]).
  assert (LC' : lcalls_ok (shifts i h)) by (intros c' y I; apply LC; now right).
  assert (Z0 : lsmall 0) by (split; easy).
  destruct (lshift_all sh OK lv 0%N Z0 Hc) as [A B].
  match type of H with emrun _ ?st _ = _ => set (s2 := st) in * end.
  assert (O : owns s2 i (List.length (em_inhs s1)) (lvl_shift sh 0 lv)).
  { repeat split; unfold s2; cbn [em_ivar em_inhs]; [apply upd_same| |].
    - intros j J. rewrite upd_other by exact J. intros K. apply W1 in K. lia.
    - exists r. rewrite nth_error_app2, Nat.sub_diag by lia. reflexivity. }
  assert (G : forall m, (m < 10)%N -> N.testbit (lvl_shift sh 0 lv) (m + 1) = existsb (fun x => lmentions x m) lv).
  { intros m Hm. rewrite B by exact Hm. rewrite N.bits_0. now destruct (existsb _ lv). }
  destruct (owns_run sh OK h s2 s i _ _ _ W2 O A G LC' AP AL H) as (Z & v' & (O1 & _ & rr & O2) & [V1 _] & V2).
  unfold em_inh, inh_at in *. rewrite O1 in *. cbn [rd] in *. rewrite O2 in *.
  rewrite (positive_bit sh OK _ v' x n); auto. rewrite V2 by exact Hn. cbn [level_in lcall_args is_ishift].
  now destruct (existsb _ lv).
Qed.

(* ---- C127: panics ---- *)
(* A statement panics exactly when it selects the attribute part of a zero Inheritance. *)
Theorem C127_panic_exact : forall sh s c,
  emstep sh s c = None <-> exists i, In (PI i) (places c) /\ em_inh s i = None.
Proof.
  intros sh s c.
  assert (G : forall pl, place_get s pl = None <-> exists i, pl = PI i /\ em_inh s i = None).
  { intros [x|i]; cbn [place_get].
    - split; [easy|]. now intros (i & E & _).
    - unfold em_inh, inh_at. split.
      + intros H. exists i. split; [easy|]. destruct (rd (em_inhs s) (em_ivar s i)) as [[]|]; easy.
      + intros (j & [= <-] & H). destruct (rd (em_inhs s) (em_ivar s i)) as [[]|]; easy. }
  assert (G1 : forall pl, place_get s pl = None <-> exists i, In (PI i) [pl] /\ em_inh s i = None).
  { intros pl. rewrite G. split; intros (i & E & H); exists i; (split; [|exact H]); [now left|]. now destruct E as [E|[]]. }
  destruct c as [x kw xs|i pl lv|i|i j|z i on xs|pl xs|pl raw bkw|pl k|pl pl']; cbn [emstep places].
  - split; [easy|intros (j & [] & _)].
  - rewrite <- G1. destruct (place_get s pl); easy.
  - split; [easy|intros (k & [] & _)].
  - split; [easy|intros (k & [] & _)].
  - destruct (shift_ref sh s (em_ivar s i) on xs). split; [easy|intros (k & [] & _)].
  - rewrite <- G1. destruct (place_get s pl) as [r|]; [|easy]. destruct (ref_set (em_pairs s) r xs); easy.
  - rewrite <- G1. destruct (place_get s pl) as [r|]; [|easy]. destruct (ref_parse (em_pairs s) r raw bkw); easy.
  - rewrite <- G1. destruct (place_get s pl); easy.
  - split.
    + intros H. destruct (place_get s pl') eqn:E'.
      * destruct (place_get s pl) eqn:E; [discriminate|]. apply G in E as (i & -> & Z). exists i. split; [now left|exact Z].
      * apply G in E' as (i & -> & Z). exists i. split; [right; now left|exact Z].
    + intros (i & [->|[->|[]]] & Z).
      * assert (E : place_get s (PI i) = None) by (apply G; eauto). rewrite E. now destruct (place_get s pl').
      * assert (E : place_get s (PI i) = None) by (apply G; eauto). now rewrite E.
Qed.

(* ---- C127: what one statement does to every place ---- *)
Lemma put_part s pl r pl' q : place_get s pl = Some r ->
  (same s pl pl' -> place_get (place_put s pl q) pl' = Some q) /\
  (~ same s pl pl' -> place_get (place_put s pl q) pl' = place_get s pl').
Proof.
  intros G. destruct pl as [x|i], pl' as [y|j]; cbn [same place_put place_get] in *.
  - cbn [em_avar]. split; [intros <-; now rewrite upd_same|intros N; now rewrite upd_other by congruence].
  - now split.
  - destruct (em_ivar s i) as [l|]; [|now split]. destruct (nth_error (em_inhs s) l) as [[]|]; now split.
  - destruct (em_ivar s i) as [l|] eqn:E; cbn [rd] in G; [|discriminate].
    destruct (nth_error (em_inhs s) l) as [[lv r']|] eqn:N; [|discriminate]. cbn [em_inhs em_ivar]. split.
    + intros <-. cbn [rd]. now rewrite (nth_wr_same _ _ _ _ N).
    + intros D. destruct (em_ivar s j) as [k|]; [|easy]. cbn [rd]. rewrite nth_wr_other; [easy|congruence].
Qed.
Lemma put_pairs s pl q : em_pairs (place_put s pl q) = em_pairs s.
Proof.
  destruct pl as [x|i]; cbn [place_put]; [easy|]. destruct (em_ivar s i) as [l|]; [|easy]. now destruct (nth_error (em_inhs s) l) as [[]|].
Qed.
Lemma grown_part s ps pl r : ewf s -> place_get s pl = Some r -> (exists t, ps = em_pairs s ++ t)%list ->
  rd ps (snd r) = rd (em_pairs s) (snd r).
Proof.
  intros W G [t ->]. assert (B := place_wf s pl r W G). destruct (snd r) as [l|]; [|easy]. cbn [rd]. apply nth_error_app1. now apply B.
Qed.
Lemma get_pairs s ps pl : place_get (with_pairs s ps) pl = place_get s pl.
Proof. now destruct pl. Qed.
(* one statement that writes the place pl and only adds pairs *)
Lemma write_part s pl r ps q pl' : ewf s -> place_get s pl = Some r -> (exists t, ps = em_pairs s ++ t)%list ->
  let s' := place_put (with_pairs s ps) pl q in
  (same s pl pl' -> em_part s' pl' = Some (MkABTV (fst q) (rd ps (snd q)))) /\
  (~ same s pl pl' -> em_part s' pl' = em_part s pl').
Proof.
  intros W G T s'. assert (G' : place_get (with_pairs s ps) pl = Some r) by now rewrite get_pairs.
  destruct (put_part (with_pairs s ps) pl r pl' q G') as [A B].
  assert (S : same (with_pairs s ps) pl pl' <-> same s pl pl') by now destruct pl, pl'.
  unfold em_part, s'. split; intros H.
  - rewrite A by now apply S. cbn [option_map]. unfold abtv_at. now rewrite put_pairs.
  - rewrite B by now rewrite S. rewrite get_pairs. destruct (place_get s pl') as [r'|] eqn:G2; [|easy]. cbn [option_map]. unfold abtv_at.
    rewrite put_pairs. cbn [with_pairs em_pairs]. now rewrite (grown_part s ps pl' r' W G2 T).
Qed.
(* Parse replaces the part by what was read, or does nothing if it cannot be read;
   an assigned keyword or part is the new one; and nothing else in the program
   shows it, except under another name of the same inheritance. *)
Theorem C127_parse_exact : forall sh p s pl raw bkw s' v pl', emrun sh em_start p = Some s ->
  emstep sh s (EParse pl raw bkw) = Some s' -> em_part s pl = Some v ->
  (same s pl pl' -> em_part s' pl' = Some (match abtv_parse raw bkw with Some w => w | None => v end)) /\
  (~ same s pl pl' -> em_part s' pl' = em_part s pl').
Proof.
  intros sh p s pl raw bkw s' v pl' R H V. assert (W := run_wf sh p _ _ ewf_start R). cbn [emstep] in H. unfold em_part in V.
  destruct (place_get s pl) as [r|] eqn:G; [|discriminate]. cbn [option_map] in V. injection V as <-. unfold ref_parse in H.
  assert (K : forall w, abtv_parse raw bkw = Some w -> exists k pr, w = MkABTV k (Some pr)).
  { intros w. unfold abtv_parse, parseATBTV. destruct (idx "#" raw); [|discriminate]. destruct (String.eqb _ badAT); [discriminate|].
    unfold userOrGroupAttr. destruct (negb _); intros [= <-]; eauto. }
  destruct (abtv_parse raw bkw) as [w|].
  - destruct (K w eq_refl) as (k & pr & ->). injection H as <-.
    destruct (write_part s pl r (em_pairs s ++ [pr])%list (k, Some (List.length (em_pairs s))) pl' W G (ex_intro _ [pr] eq_refl)) as [A B].
    split; intros S; [|now apply B]. rewrite A by exact S. cbn [fst snd]. now rewrite rd_last.
  - injection H as <-. destruct (write_part s pl r (em_pairs s) r pl' W G) as [A B]; [exists []; now rewrite List.app_nil_r|]. split; intros S; [now apply A|now apply B].
Qed.
Lemma with_same s : s = with_pairs s (em_pairs s).
Proof. now destruct s. Qed.
Theorem C127_fields_exact : forall sh p s pl s' v pl', emrun sh em_start p = Some s -> em_part s pl = Some v ->
  (forall k, emstep sh s (EKey pl k) = Some s' ->
     (same s pl pl' -> em_part s' pl' = Some (MkABTV k (ab_pair v))) /\
     (~ same s pl pl' -> em_part s' pl' = em_part s pl')) /\
  (forall from, emstep sh s (EPut pl from) = Some s' ->
     (same s pl pl' -> em_part s' pl' = em_part s from) /\
     (~ same s pl pl' -> em_part s' pl' = em_part s pl')).
Proof.
  intros sh p s pl s' v pl' R V. assert (W := run_wf sh p _ _ ewf_start R).
  assert (T : exists t, em_pairs s = (em_pairs s ++ t)%list) by (exists []; now rewrite List.app_nil_r).
  unfold em_part in V. destruct (place_get s pl) as [r|] eqn:G; [|discriminate]. injection V as <-. split.
  - intros k H. cbn [emstep] in H. rewrite G in H. injection H as <-.
    destruct (write_part s pl r (em_pairs s) (k, snd r) pl' W G T) as [A B]. rewrite <- with_same in A, B. split; intros S; [now apply A|now apply B].
  - intros from H. cbn [emstep] in H. rewrite G in H. destruct (place_get s from) as [q|] eqn:F; [|discriminate]. injection H as <-.
    destruct (write_part s pl r (em_pairs s) q pl' W G T) as [A B]. rewrite <- with_same in A, B. split; intros S; [|now apply B].
    rewrite A by exact S. unfold em_part. now rewrite F.
Qed.
(* Set acts on the part itself as on a variable of its own (C22-C25); every other
   place changes exactly when the part is not zero and the place holds the same
   pair, and then its pair gets the same values. *)
Theorem C127_set_exact : forall sh p s pl xs s' v pl' v', emrun sh em_start p = Some s ->
  emstep sh s (ESet pl xs) = Some s' -> em_part s pl = Some v -> em_part s pl' = Some v' ->
  (same s pl pl' -> em_part s' pl' = Some (abtv_set v xs)) /\
  (~ same s pl pl' -> abtv_isZero v = false -> shares s pl pl' ->
     em_part s' pl' = Some (MkABTV (ab_kw v') (ab_pair (abtv_set v xs)))) /\
  (~ same s pl pl' -> abtv_isZero v = true \/ ~ shares s pl pl' -> em_part s' pl' = Some v').
Proof.
  intros sh p s pl xs s' v pl' v' R H V V'. assert (W := run_wf sh p _ _ ewf_start R). cbn [emstep] in H. assert (V2 := V'). unfold em_part in V, V'.
  destruct (place_get s pl) as [r|] eqn:G; [|discriminate]. destruct (place_get s pl') as [r'|] eqn:G'; [|discriminate].
  cbn [option_map] in V, V'. injection V as <-. injection V' as <-. destruct r as [k q]. unfold ref_set in H. cbn [fst snd] in H.
  assert (New : (if (k =? 0)%N then None else q) = None -> s' = place_put (with_pairs s (em_pairs s ++ [pair_set pair_nil xs])%list) pl (k, Some (List.length (em_pairs s)))).
  { intros E. rewrite E in H. now injection H as <-. }
  destruct (if (k =? 0)%N then None else q) as [l|] eqn:E.
  - destruct (k =? 0)%N eqn:K; [discriminate|]. subst q.
    assert (L := place_wf s pl _ W G l eq_refl). destruct (nth_error (em_pairs s) l) as [pr|] eqn:N; [|apply nth_error_Some in L; congruence].
    injection H as <-. clear New.
    assert (G1 : place_get (with_pairs s (wr (em_pairs s) l (pair_set pr xs))) pl = Some (k, Some l)) by now rewrite get_pairs.
    destruct (put_part _ pl _ pl' (@pair BinNums.N ptr k (Some l)) G1) as [A B].
    assert (S : same (with_pairs s (wr (em_pairs s) l (pair_set pr xs))) pl pl' <-> same s pl pl') by now destruct pl, pl'.
    assert (Sv : abtv_set (abtv_at s (@pair BinNums.N ptr k (Some l))) xs = MkABTV k (Some (pair_set pr xs))).
    { unfold abtv_set, abtv_isZero, abtv_at. cbn [fst snd ab_kw ab_pair rd]. now rewrite N, K. }
    assert (Zv : abtv_isZero (abtv_at s (@pair BinNums.N ptr k (Some l))) = false).
    { unfold abtv_isZero, abtv_at. cbn [fst snd ab_kw ab_pair rd]. now rewrite N. }
    unfold em_part. rewrite Sv, Zv. cbn [ab_kw ab_pair]. repeat split.
    + intros D. rewrite A by now apply S. cbn [option_map]. unfold abtv_at. rewrite put_pairs. cbn [fst snd with_pairs em_pairs rd].
      now rewrite (nth_wr_same _ _ _ _ N).
    + intros D _ (k1 & k2 & l2 & E1 & E2). rewrite G in E1. injection E1 as <- <-. rewrite G' in E2. injection E2 as ->.
      rewrite B by now rewrite S. rewrite get_pairs, G'. cbn [option_map]. unfold abtv_at. rewrite put_pairs. cbn [fst snd with_pairs em_pairs rd ab_kw].
      now rewrite (nth_wr_same _ _ _ _ N).
    + intros D [?|NS]; [discriminate|]. rewrite B by now rewrite S. rewrite get_pairs, G'. cbn [option_map]. unfold abtv_at. rewrite put_pairs. cbn [with_pairs em_pairs].
      destruct r' as [k2 [l2|]]; cbn [fst snd rd]; [|easy]. rewrite nth_wr_other; [easy|]. intros ->. apply NS. exists k, k2, l. now split.
  - rewrite (New eq_refl) in *. clear H New. set (ps := (em_pairs s ++ [pair_set pair_nil xs])%list) in *.
    destruct (write_part s pl (k, q) ps (k, Some (List.length (em_pairs s))) pl' W G (ex_intro _ [pair_set pair_nil xs] eq_refl)) as [A B].
    assert (Zv : abtv_isZero (abtv_at s (k, q)) = true).
    { unfold abtv_isZero, abtv_at. cbn [fst snd ab_kw ab_pair]. destruct (k =? 0)%N; [now destruct (rd (em_pairs s) q)|]. now subst q. }
    repeat split.
    + intros D. rewrite A by exact D. cbn [fst snd]. unfold ps. rewrite rd_last. unfold abtv_set. rewrite Zv. reflexivity.
    + intros _ Z. congruence.
    + intros D _. rewrite B by exact D. exact V2.
Qed.

(* Parse always leaves the keyword userattr, and never takes the text of a whole
   inheritance. *)
Theorem C127_parse_keyword_exact : forall raw bkw v, abtv_parse raw bkw = Some v -> ab_kw v = BindUAT.
Proof.
  intros raw bkw v. unfold abtv_parse, parseATBTV. destruct (idx "#" raw); [|discriminate]. destruct (String.eqb _ badAT); [discriminate|].
  destruct (negb _); intros [= <-]; reflexivity.
Qed.
Theorem C127_parse_whole_exact : forall r bkw, abtv_parse ("parent[" ++ r) bkw = None.
Proof.
  intros r bkw. unfold abtv_parse, parseATBTV.
  assert (X : idx "#" ("parent[" ++ r) = option_map (fun i => S (S (S (S (S (S (S i))))))) (idx "#" r)).
  { cbn. now destruct (idx "#" r). }
  rewrite X. clear X. destruct (idx "#" r) as [i|]; [|reflexivity]. cbn [option_map].
  match goal with |- context [AT ?y] => set (x := y) end. assert (E : AT x = None).
  { unfold AT. assert (I : isIdentifier x = false).
    { destruct (isIdentifier x) eqn:I; [|reflexivity]. apply identifier_iff in I as (_ & _ & I). specialize (I "["%char ltac:(unfold x; cbn; tauto)). discriminate. }
    rewrite I. reflexivity. }
  rewrite E. reflexivity.
Qed.
(* Shift on an inheritance without an attribute part: the variable is untouched, and
   what is returned has the new levels only and no attribute part either. *)
Theorem C127_shift_zero_exact : forall sh p s i z xs s', emrun sh em_start p = Some s -> inh_isZero (em_inh s i) = true -> z <> i ->
  emstep sh s (EShift (Some z) i true xs) = Some s' ->
  em_inh s' i = em_inh s i /\ em_inh s' z = Some (MkInh (lvl_shift sh 0 xs) abtv_zero).
Proof.
  intros sh p s i z xs s' R Z D H. assert (W := run_wf sh p _ _ ewf_start R). cbn [emstep] in H. unfold shift_ref in H. unfold em_inh in Z. rewrite Z in H. injection H as <-.
  unfold em_inh, inh_at. cbn [em_inhs em_ivar]. rewrite upd_same, upd_other by congruence. split.
  - destruct (em_ivar s i) as [l|] eqn:E; [|reflexivity]. apply W in E. cbn [rd]. now rewrite nth_error_app1.
  - rewrite rd_last. reflexivity.
Qed.

(* The claim fails in four ways: a zero Inheritance panics; Parse through a groupattr
   inheritance makes it userattr; the pair given to Inherit is shared; and levels are
   lost by a Shift while the attribute part is missing. *)
Definition lost : list emcmd :=
  [EMake 0 BindUAT [BStr "manager"; BStr "USERDN"]; EInherit 0 (PA 0) [LInt 3]; EKey (PI 0) 0; EShift (Some 0%nat) 0 true [LInt 1]; EPut (PI 0) (PA 0)].
Theorem C127_refuted : forall sh, shifty_ok sh ->
  emrun sh em_start [ESet (PI 0) [BStr "cn"]] = None /\
  (exists s, emrun sh em_start [EMake 0 BindGAT [BStr "manager"; BStr "USERDN"]; EInherit 0 (PA 0) [LInt 3]; EParse (PI 0) "owner#GROUPDN" [Some BindGAT]] = Some s /\
     em_part s (PI 0) = Some (MkABTV BindUAT (Some (pair_of "owner" (WType GROUPDN)))) /\ em_part s (PA 0) = Some (MkABTV BindGAT (Some (pair_of "manager" (WType USERDN))))) /\
  (exists s, emrun sh em_start [EMake 0 BindUAT [BStr "manager"; BStr "USERDN"]; EInherit 0 (PA 0) [LInt 3]; ESet (PA 0) [BStr "x"]] = Some s /\
     em_part s (PI 0) = Some (MkABTV BindUAT (Some (pair_of "manager" (WValue "x"))))) /\
  (exists s, emrun sh em_start lost = Some s /\ (forall c, In c (skipn 2 lost) -> apart 0 c) /\ shifts 0 (skipn 2 lost) = [IShift [LInt 1]] /\
     inh_isZero (em_inh s 0) = false /\ inh_positive sh (em_inh s 0) (LInt 1) = true /\ inh_positive sh (em_inh s 0) (LInt 3) = false).
Proof.
  intros sh OK. split; [reflexivity|]. split; [eexists; split; [reflexivity|split; reflexivity]|]. split; [eexists; split; reflexivity|].
  eexists. split; [reflexivity|]. split; [|split; [reflexivity|]].
  - cbn [skipn lost In apart]. intros c [<-|[<-|[<-|[]]]]; cbn; tauto.
  - split; [reflexivity|].
    assert (Hc : forall x, In x [LInt 1] -> larg_ok x) by (intros x [<-|[]]; cbn; lia).
    assert (Z0 : lsmall 0) by (split; easy). destruct (lshift_all sh OK [LInt 1] 0%N Z0 Hc) as [[A _] B].
    assert (P : forall n, (n < 10)%N -> forall a, abtv_isZero a = false -> inh_positive sh (Some (MkInh (lvl_shift sh 0 [LInt 1]) a)) (LInt (Z.of_N n)) = (1 =? n)%N).
    { intros n Hn a Ha. rewrite (positive_bit sh OK a _ (LInt (Z.of_N n)) n Ha A Hn) by auto. rewrite B by exact Hn. rewrite N.bits_0.
      cbn [existsb lmentions]. rewrite orb_false_r. destruct (N.eqb_spec 1 n) as [<-|D]; [reflexivity|]. destruct (Z.eqb_spec 1 (Z.of_N n)); [lia|reflexivity]. }
    split; [apply (P 1%N)|apply (P 3%N)]; reflexivity.
Qed.
(* A program that meets the hypotheses: two names for one attribute part, a Set and a
   Parse through the inheritance between Shift and Unshift calls, a second inheritance. *)
Definition mixed : list emcmd :=
  [ESet (PI 0) [BStr "GROUPDN"]; EShift None 0 true [LInt 4; LStr "5"]; EParse (PI 0) "owner#USERDN" [];
   EInherit 1 (PI 0) [LInt 9]; EShift (Some 0%nat) 0 false [LLevel (level_const 4)]; EKey (PI 0) BindGAT; EPut (PI 1) (PA 0); EShift (Some 2%nat) 1 true [LInt 0]].
Definition head : list emcmd := [EMake 0 BindUAT [BStr "manager"; BStr "USERDN"]; EInherit 0 (PA 0) [LInt 3]].
Example C127_witness : exists s0 s,
  emrun shifty_ref em_start head = Some s0 /\ emrun shifty_ref s0 mixed = Some s /\
  (forall c, In c mixed -> apart 0 c) /\ always shifty_ref (fun s => inh_isZero (em_inh s 0) = false) s0 mixed /\
  live shifty_ref em_start (head ++ mixed)%list /\
  lcalls_ok (IShift [LInt 3] :: shifts 0 mixed) /\
  inh_string shifty_ref "" (em_inh s 0) = "parent[3,5].owner#USERDN" /\ inh_string shifty_ref "" (em_inh s 1) = "parent[0,9].manager#GROUPDN" /\
  em_part s (PI 0) = Some (MkABTV BindGAT (Some (pair_of "owner" (WType USERDN)))) /\
  em_part s (PI 2) = Some (MkABTV BindUAT (Some (pair_of "manager" (WType GROUPDN)))) /\ same s (PI 1) (PI 2) /\ shares s (PI 1) (PA 0) /\ ~ shares s (PI 0) (PA 0).
Proof.
  eexists. eexists. split; [vm_compute; reflexivity|]. split; [vm_compute; reflexivity|]. split.
  { intros c H. unfold mixed in H. cbn [In] in H. decompose [or] H; try contradiction; subst c; cbn [apart]; try exact I; try (split; congruence); congruence. }
  split; [vm_compute; tauto|]. split; [vm_compute; tauto|]. split.
  { intros c x [<-|[<-|[<-|[]]]]; cbn [lcall_args In]; intros H; repeat (destruct H as [<-|H]); try destruct H; cbn [larg_ok]; try lia.
    - exists 5%N. split; [lia|reflexivity].
    - split; [split; reflexivity|reflexivity]. }
  repeat (split; [vm_compute; reflexivity|]). split; [exists BindUAT, BindUAT, 0%nat; split; vm_compute; reflexivity|].
  intros (k & k' & l & E & E'). vm_compute in E, E'. congruence.
Qed.
Print Assumptions C127_attribute.
Print Assumptions C127_levels.
Print Assumptions C127_panic_exact.
Print Assumptions C127_parse_exact.
Print Assumptions C127_fields_exact.
Print Assumptions C127_set_exact.
Print Assumptions C127_parse_keyword_exact.
Print Assumptions C127_parse_whole_exact.
Print Assumptions C127_shift_zero_exact.
Print Assumptions C127_refuted.
