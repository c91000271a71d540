(* C171: goroutines that set and print one search filter, word by word. *)
From Coq Require Import String List PeanoNat Bool Lia.
From Verif Require Import GoStr MHeap MHdr SHdr PWhole PDrain.
Import ListNotations.
Open Scope list_scope.
Open Scope nat_scope.

Lemma substring_all d : substring 0 (String.length d) d = d.
Proof. induction d as [|c d IH]; cbn; [reflexivity|now rewrite IH]. Qed.
Lemma view_all tl d : view tl d (String.length d) = d.
Proof. unfold view. rewrite Nat.leb_refl. apply substring_all. Qed.
Lemma len_empty x : (String.length x =? 0) = true <-> x = EmptyString.
Proof. destruct x; cbn; split; congruence. Qed.
Lemma len_filled x : (String.length x =? 0) = false <-> x <> EmptyString.
Proof. destruct x; cbn; split; congruence. Qed.
Lemma sets_filled s x : x <> EmptyString -> h_sets s x = x.
Proof. now destruct x. Qed.

Section World.
Variable w : hw.
Notation sched := (h_sched w).
Lemma h_app st a b : sched st (a ++ b) = sched (sched st a) b.
Proof. apply fold_left_app. Qed.
Lemma h_snoc st a i : sched st (a ++ [i]) = h_step w (sched st a) i.
Proof. now rewrite h_app. Qed.
Lemma h_step_go st i g0 : nth_error (hgos st) i = Some g0 ->
  hdata (h_step w st i) = fst (fst (h_gstep w (hdata st) (hlen st) g0)) /\
  hlen (h_step w st i) = snd (fst (h_gstep w (hdata st) (hlen st) g0)) /\
  nth_error (hgos (h_step w st i)) i = Some (snd (h_gstep w (hdata st) (hlen st) g0)) /\
  forall j, j <> i -> nth_error (hgos (h_step w st i)) j = nth_error (hgos st) j.
Proof.
  intros E. unfold h_step. rewrite E. destruct (h_gstep w (hdata st) (hlen st) g0) as [[d l] g']. cbn [hdata hlen hgos fst snd].
  split; [reflexivity|]. split; [reflexivity|]. split; [apply wr_same; apply nth_error_Some; congruence|]. intros j J. now apply wr_other.
Qed.
Lemma h_step_none st i : nth_error (hgos st) i = None -> h_step w st i = st.
Proof. intros E. unfold h_step. now rewrite E. Qed.
Lemma h_step_len st i : List.length (hgos (h_step w st i)) = List.length (hgos st).
Proof.
  unfold h_step. destruct (nth_error (hgos st) i) as [g|]; [|reflexivity].
  destruct (h_gstep w (hdata st) (hlen st) g) as [[d l] g']. cbn [hgos]. apply wr_len.
Qed.
Lemma h_start_at s css i g : nth_error (hgos (h_start s css)) i = Some g -> exists cs, nth_error css i = Some cs /\ g = MkHg cs HIdle [].
Proof. cbn. rewrite nth_error_map. destruct (nth_error css i) as [cs|]; [|discriminate]. intros [= <-]. now exists cs. Qed.

Section Parts.
Variables (s : string) (css : list (list hcall)).
Notation at_ q := (sched (h_start s css) q).
Definition ok_len (l : nat) : Prop := exists y, h_text s css y /\ l = String.length y.
Definition ok_res (r : hres) : Prop := match r with HDone => True | HText t => exists d y, h_text s css d /\ h_text s css y /\ t = view (tail w) d (String.length y) end.
Definition go_ok (g : hgo) : Prop :=
  (exists cs a, In cs css /\ cs = a ++ htodo g) /\
  match hph g with HIdle => True | HHalf x => h_gives css x | HSawD d => h_text s css d | HSawL l => ok_len l end /\
  forall r, In r (hres_of g) -> ok_res r.
Definition hinv (st : hstate) : Prop := h_text s css (hdata st) /\ ok_len (hlen st) /\ forall j g, nth_error (hgos st) j = Some g -> go_ok g.
Lemma hinv_run q : hinv (at_ q).
Proof.
  induction q as [|y q IH] using rev_ind.
  - split; [now left|]. split; [exists s; split; [now left|reflexivity]|]. intros j g E. apply h_start_at in E as (cs & E & ->). apply nth_error_In in E. split; [now exists cs, []|]. split; [exact I|]. intros r [].
  - rewrite h_snoc. set (st := at_ q) in *. destruct IH as (Od & Ol & Go).
    destruct (nth_error (hgos st) y) as [g0|] eqn:Y; [|rewrite h_step_none by assumption; now split].
    destruct (h_step_go st y g0 Y) as (D & L & N & O). destruct (Go y g0 Y) as ((cs & a & C & A) & P & R).
    assert (Fin : forall d l g', h_gstep w (hdata st) (hlen st) g0 = (d, l, g') -> h_text s css d -> ok_len l -> go_ok g' -> hinv (h_step w st y)).
    { intros d l g' Eq X1 X2 X3. rewrite Eq in D, L, N. cbn [fst snd] in D, L, N. split; [now rewrite D|]. split; [now rewrite L|]. intros j g E.
      destruct (Nat.eq_dec j y) as [->|Dj]; [rewrite N in E; now injection E as <-|]. rewrite O in E by assumption. now apply (Go j). }
    assert (Add : forall r, ok_res r -> forall r', In r' (hres_of g0 ++ [r]) -> ok_res r') by (intros r X r' K; apply in_app_or in K as [K|[<-|[]]]; [now apply R|assumption]).
    assert (Td : exists cs a, In cs css /\ cs = a ++ htodo g0) by now exists cs, a.
    unfold h_gstep in Fin. destruct (hph g0) as [|x|d|l] eqn:Ph.
    + destruct (htodo g0) as [|[x|] r] eqn:T.
      * eapply Fin; [reflexivity|assumption|assumption|]. now apply (Go y).
      * assert (Tr : exists cs a, In cs css /\ cs = a ++ r) by (exists cs, (a ++ [HSet x]); split; [assumption|now rewrite <- app_assoc]).
        destruct (String.length x =? 0) eqn:Le.
        -- eapply Fin; [reflexivity|assumption|assumption|]. split; [exact Tr|]. split; [exact I|]. now apply Add.
        -- apply len_filled in Le. assert (Gv : h_gives css x) by (exists cs; split; [assumption|]; split; [rewrite A; apply in_or_app; right; now left|assumption]).
           destruct (wlen w); (eapply Fin; [reflexivity| | |split; [exact Tr|]; split; [exact Gv|exact R]]); try assumption; [exists x; split; [now right|reflexivity]|now right].
      * assert (Tr : exists cs a, In cs css /\ cs = a ++ r) by (exists cs, (a ++ [HString]); split; [assumption|now rewrite <- app_assoc]).
        eapply Fin; [reflexivity|assumption|assumption|]. split; [exact Tr|]. split; [cbn; now destruct (rlen w)|exact R].
    + destruct (wlen w); (eapply Fin; [reflexivity| | |split; [exact Td|]; split; [exact I|now apply Add]]); try assumption; [now right|exists x; split; [now right|reflexivity]].
    + destruct Ol as (z & Z & El). eapply Fin; [reflexivity|assumption|now exists z|]. split; [exact Td|]. split; [exact I|]. apply Add. exists d, z. rewrite El. now repeat split.
    + destruct P as (z & Z & El). eapply Fin; [reflexivity|assumption|assumption|]. split; [exact Td|]. split; [exact I|]. apply Add. exists (hdata st), z. rewrite El. now repeat split.
Qed.
End Parts.

(* ---- one goroutine that calls Set ---- *)
Section Sole.
Variables (s : string) (css : list (list hcall)) (i : nat) (cs : list hcall).
Hypothesis Hi : nth_error css i = Some cs.
Hypothesis Ho : forall j cs', j <> i -> nth_error css j = Some cs' -> forall c, In c cs' -> c = HString.
Notation at_ q := (sched (h_start s css) q).
(* the text before the call that the setter is in *)
Definition holds (st : hstate) (g : hgo) (c : string) : Prop :=
  match hph g with
  | HHalf x => x <> EmptyString /\ (if wlen w then hdata st = c /\ hlen st = String.length x else hdata st = x /\ hlen st = String.length c)
  | HSawD d => d = c /\ hdata st = c /\ hlen st = String.length c
  | HSawL l => l = String.length c /\ hdata st = c /\ hlen st = String.length c
  | HIdle => hdata st = c /\ hlen st = String.length c
  end.
Definition hcur (c : string) (g : hgo) : string := match hph g with HHalf x => x | _ => c end.
Definition hpend (c : string) (g : hgo) : list string := match hph g with HSawD _ | HSawL _ => [c] | _ => [] end.
Definition hgoes (st : hstate) : Prop :=
  (exists g c, nth_error (hgos st) i = Some g /\ holds st g c /\ h_said g ++ hpend c g ++ h_alone (hcur c g) (htodo g) = h_alone s cs /\ h_left (hcur c g) (htodo g) = h_left s cs) /\
  forall j g, j <> i -> nth_error (hgos st) j = Some g -> (exists cs' a, nth_error css j = Some cs' /\ cs' = a ++ htodo g) /\ match hph g with HHalf _ => False | _ => True end.
Lemma hsaid_snoc td ph r x : h_said (MkHg td ph (r ++ [x])) = h_said (MkHg td ph r) ++ match x with HText t => [t] | HDone => [] end.
Proof. unfold h_said. cbn [hres_of]. rewrite flat_map_app. cbn [flat_map]. now rewrite app_nil_r. Qed.
Lemma hgoes_run q : hgoes (at_ q).
Proof.
  induction q as [|y q IH] using rev_ind.
  - split.
    + exists (MkHg cs HIdle []), s. split; [cbn; now rewrite nth_error_map, Hi|]. split; [now split|]. now split.
    + intros j g D E. apply h_start_at in E as (c & E & ->). split; [now exists c, []|exact I].
  - rewrite h_snoc. set (st := at_ q) in *. destruct IH as [(g & c & E & H & R & L) Oth].
    destruct (nth_error (hgos st) y) as [g0|] eqn:Y; [|rewrite h_step_none by assumption; split; [now exists g, c|assumption]].
    destruct (h_step_go st y g0 Y) as (Dd & Ll & N & O). destruct (Nat.eq_dec y i) as [->|D].
    + assert (g0 = g) as -> by congruence. split; [|intros j h D; rewrite O by assumption; now apply Oth].
      assert (Tx : forall td ph, h_said (MkHg td ph (hres_of g)) = h_said g) by reflexivity.
      assert (Tg : forall td ph x, h_said (MkHg td ph (hres_of g ++ [x])) = h_said g ++ match x with HText t => [t] | HDone => [] end) by (intros; now rewrite hsaid_snoc, Tx).
      unfold h_gstep in Dd, Ll, N. unfold holds, hcur, hpend in H, R, L |- *.
      destruct (hph g) as [|x|d|l] eqn:Ph; cbn [app] in R.
      * destruct (htodo g) as [|[x|] r] eqn:T.
        -- cbn [fst snd] in Dd, Ll, N. exists g, c. rewrite Ph, T, Dd, Ll. now repeat split.
        -- cbn [h_alone h_left] in R, L. destruct (String.length x =? 0) eqn:Le.
           ++ cbn [fst snd] in Dd, Ll, N. apply len_empty in Le as ->. eexists _, c. split; [exact N|]. cbn [hph htodo]. rewrite Dd, Ll, Tg, app_nil_r. now repeat split.
           ++ apply len_filled in Le. rewrite (sets_filled c x Le) in R, L. destruct H as [H1 H2].
              destruct (wlen w); cbn [fst snd] in Dd, Ll, N; eexists _, c; (split; [exact N|]); cbn [hph htodo]; rewrite Dd, Ll, Tx; now repeat split.
        -- cbn [h_alone h_left] in R, L. destruct H as [H1 H2]. cbn [fst snd] in Dd, Ll, N. eexists _, c. split; [exact N|]. cbn [hph htodo]. rewrite Dd, Ll, Tx. destruct (rlen w); now repeat split.
      * destruct H as [Ne H]. destruct (wlen w); destruct H as [H1 H2]; cbn [fst snd] in Dd, Ll, N; eexists _, x; (split; [exact N|]); cbn [hph htodo]; rewrite Dd, Ll, Tg, app_nil_r; now repeat split.
      * destruct H as (-> & H1 & H2). cbn [fst snd] in Dd, Ll, N. rewrite H2, view_all in N. eexists _, c. split; [exact N|]. cbn [hph htodo]. rewrite Dd, Ll, Tg, <- app_assoc. now repeat split.
      * destruct H as (-> & H1 & H2). cbn [fst snd] in Dd, Ll, N. rewrite H1, view_all in N. eexists _, c. split; [exact N|]. cbn [hph htodo]. rewrite Dd, Ll, Tg, <- app_assoc. now repeat split.
    + destruct (Oth y g0 D Y) as [(cs' & a & A & B) P0].
      assert (K : hdata (h_step w st y) = hdata st /\ hlen (h_step w st y) = hlen st /\
        exists g', nth_error (hgos (h_step w st y)) y = Some g' /\ (exists cs' a, nth_error css y = Some cs' /\ cs' = a ++ htodo g') /\ match hph g' with HHalf _ => False | _ => True end).
      { unfold h_gstep in Dd, Ll, N. destruct (hph g0) as [|x|d|l] eqn:Ph; try contradiction.
        - destruct (htodo g0) as [|[x|] r] eqn:T.
          + split; [exact Dd|]. split; [exact Ll|]. eexists. split; [exact N|]. cbn [snd]. rewrite T, Ph. split; [now exists cs', a|exact I].
          + assert (Q : HSet x = HString) by (apply (Ho y cs' D A); rewrite B; apply in_or_app; right; now left). discriminate Q.
          + split; [exact Dd|]. split; [exact Ll|]. eexists. split; [exact N|]. cbn [snd hph htodo]. split; [exists cs', (a ++ [HString]); split; [assumption|now rewrite <- app_assoc]|now destruct (rlen w)].
        - split; [exact Dd|]. split; [exact Ll|]. eexists. split; [exact N|]. split; [now exists cs', a|exact I].
        - split; [exact Dd|]. split; [exact Ll|]. eexists. split; [exact N|]. split; [now exists cs', a|exact I]. }
      destruct K as (K1 & K2 & g' & G' & G1 & G2). split.
      * exists g, c. rewrite O by (intros X; now apply D). split; [assumption|]. split; [|now split]. unfold holds in *. now rewrite K1, K2.
      * intros j h Dj J. destruct (Nat.eq_dec j y) as [->|D2]; [assert (h = g') as -> by congruence; now split|]. rewrite O in J by assumption. now apply (Oth j).
Qed.
(* once the setter has returned *)
Lemma settled a b g0 j g : nth_error (hgos (at_ a)) i = Some g0 -> h_returned g0 -> nth_error (hgos (at_ a)) j = Some g -> hph g = HIdle ->
  let st := at_ (a ++ b) in hdata st = h_left s cs /\ hlen st = String.length (h_left s cs) /\ nth_error (hgos st) i = Some g0 /\
  exists g' new, nth_error (hgos st) j = Some g' /\ hres_of g' = hres_of g ++ new /\ (forall r, In r new -> r = HText (h_left s cs)) /\
  match hph g' with HIdle => True | HSawD d => d = h_left s cs | HSawL l => l = String.length (h_left s cs) | HHalf _ => False end.
Proof.
  intros E0 [T P] Ej Pj. induction b as [|y b IH] using rev_ind; cbv zeta in *.
  - rewrite app_nil_r. destruct (hgoes_run a) as [(g0' & c & E & H & _ & L) _]. assert (g0' = g0) as -> by congruence. unfold holds, hcur in H, L. rewrite P in H, L. rewrite T in L. cbn in L. subst c.
    split; [apply H|]. split; [apply H|]. split; [assumption|]. exists g, []. split; [assumption|]. split; [now rewrite app_nil_r|]. split; [intros r []|now rewrite Pj].
  - rewrite app_assoc, h_snoc. assert (Gs := hgoes_run (a ++ b)). set (st := at_ (a ++ b)) in *. destruct IH as (Hd & Hl & Hi' & g' & new & Ej' & Rj & Nw & Pg).
    destruct (nth_error (hgos st) y) as [g1|] eqn:Y; [|rewrite h_step_none by assumption; split; [assumption|]; split; [assumption|]; split; [assumption|]; now exists g', new].
    destruct (h_step_go st y g1 Y) as (Dd & Ll & N & O). destruct (Nat.eq_dec y i) as [->|D].
    + assert (g1 = g0) as -> by congruence. unfold h_gstep in Dd, Ll, N. rewrite P, T in Dd, Ll, N. cbn [fst snd] in Dd, Ll, N.
      split; [congruence|]. split; [congruence|]. split; [assumption|]. exists g', new. split; [|now repeat split].
      destruct (Nat.eq_dec j i) as [->|Dj]; [congruence|now rewrite O].
    + destruct Gs as [_ Oth]. destruct (Oth y g1 D Y) as [(cs' & a' & A & B) P1].
      assert (K : hdata (h_step w st y) = hdata st /\ hlen (h_step w st y) = hlen st).
      { unfold h_gstep in Dd, Ll. destruct (hph g1) as [|x|d|l]; try contradiction; try (now split). destruct (htodo g1) as [|[x|] r]; try (now split).
        assert (Q : HSet x = HString) by (apply (Ho y cs' D A); rewrite B; apply in_or_app; right; now left). discriminate Q. }
      destruct K as [K1 K2]. split; [congruence|]. split; [congruence|]. split; [rewrite O; [assumption|intros X; now apply D]|].
      destruct (Nat.eq_dec j y) as [->|Dj]; [|exists g', new; now rewrite O].
      assert (g1 = g') as -> by congruence. unfold h_gstep in N. rewrite Hd, Hl in N. destruct (hph g') as [|x|d|l] eqn:Ph; try contradiction.
      * destruct (htodo g') as [|[x|] r].
        -- cbn [snd] in N. exists g', new. rewrite Ph. now repeat split.
        -- assert (Q : HSet x = HString) by (apply (Ho y cs' D A); rewrite B; apply in_or_app; right; now left). discriminate Q.
        -- cbn [snd] in N. eexists _, new. split; [exact N|]. split; [exact Rj|]. split; [exact Nw|]. cbn. now destruct (rlen w).
      * subst d. cbn [snd] in N. rewrite view_all in N. eexists _, (new ++ [_]). split; [exact N|]. cbn [hres_of hph]. rewrite Rj, app_assoc. split; [reflexivity|]. split; [|exact I].
        intros r K. apply in_app_or in K as [K|[<-|[]]]; [now apply Nw|reflexivity].
      * subst l. cbn [snd] in N. rewrite view_all in N. eexists _, (new ++ [_]). split; [exact N|]. cbn [hres_of hph]. rewrite Rj, app_assoc. split; [reflexivity|]. split; [|exact I].
        intros r K. apply in_app_or in K as [K|[<-|[]]]; [now apply Nw|reflexivity].
Qed.
End Sole.
End World.
(* The bytes that a text is read from are those of one text, their number is that of one: each
   is the text of the start or one that was given.  So it is for the variable at every moment. *)
Theorem C171_parts : forall w s css q, let st := h_sched w (h_start s css) q in
  (exists d y, h_text s css d /\ h_text s css y /\ h_value w st = view (tail w) d (String.length y)) /\
  forall i g t, nth_error (hgos st) i = Some g -> In (HText t) (hres_of g) -> exists d y, h_text s css d /\ h_text s css y /\ t = view (tail w) d (String.length y).
Proof.
  intros w s css q st. destruct (hinv_run w s css q) as (D & (y & Y & L) & Go). fold st in D, L, Go. split.
  - exists (hdata st), y. unfold h_value. rewrite L. now repeat split.
  - intros i g t E K. destruct (Go i g E) as (_ & _ & R). exact (R _ K).
Qed.
(* Texts of one length are seen as a whole. *)
Theorem C171_length : forall w s css q, (forall x, h_gives css x -> String.length x = String.length s) -> let st := h_sched w (h_start s css) q in
  h_text s css (h_value w st) /\ forall i g t, nth_error (hgos st) i = Some g -> In (HText t) (hres_of g) -> h_text s css t.
Proof.
  intros w s css q H st. assert (Eq : forall x, h_text s css x -> String.length x = String.length s) by (intros x [->|G]; [reflexivity|now apply H]).
  destruct (C171_parts w s css q) as [(d & y & D & Y & V) R]. fold st in V, R. split.
  - rewrite V, (Eq y Y), <- (Eq d D), view_all. exact D.
  - intros i g t E K. destruct (R i g t E K) as (d' & y' & D' & Y' & ->). rewrite (Eq y' Y'), <- (Eq d' D'), view_all. exact D'.
Qed.
(* When one goroutine calls Set and the others do not, its own calls of String return what they
   would if it were alone; once it has returned, the variable has the text its calls leave, and
   calls of String that begin then return it. *)
Theorem C171_sole : forall w s css i cs g q, nth_error css i = Some cs ->
  (forall j cs', j <> i -> nth_error css j = Some cs' -> forall c, In c cs' -> c = HString) ->
  let at_ q := h_sched w (h_start s css) q in nth_error (hgos (at_ q)) i = Some g -> h_returned g ->
  h_said g = h_alone s cs /\ h_value w (at_ q) = h_left s cs /\
  forall j gj q', nth_error (hgos (at_ q)) j = Some gj -> hph gj = HIdle -> h_value w (at_ (q ++ q')) = h_left s cs /\
    exists gj' new, nth_error (hgos (at_ (q ++ q'))) j = Some gj' /\ hres_of gj' = hres_of gj ++ new /\ forall r, In r new -> r = HText (h_left s cs).
Proof.
  intros w s css i cs g q Ei Ot at_ Eg Rg. destruct (hgoes_run w s css i cs Ei Ot q) as [(g' & c & E & H & R & L) _]. assert (g' = g) as -> by (unfold at_ in *; congruence).
  destruct Rg as [T P]. unfold hpend, hcur, holds in H, R, L. rewrite P in H, R, L. rewrite T in R, L. cbn in R, L. rewrite app_nil_r in R. subst c. destruct H as [H1 H2].
  split; [assumption|]. split; [unfold h_value, at_; now rewrite H1, H2, view_all|].
  intros j gj q' Ej Pj. destruct (settled w s css i cs Ei Ot q q' g j gj Eg (conj T P) Ej Pj) as (S1 & S2 & _ & gj' & new & A & B & C & _).
  split; [unfold h_value, at_; now rewrite S1, S2, view_all|]. now exists gj', new.
Qed.
Theorem C171_returns : forall w s css q, exists q', forall g, In g (hgos (h_sched w (h_start s css) (q ++ q'))) -> h_returned g.
Proof.
  intros w s css q.
  set (left := fun g => match hph g with HIdle => 0 | _ => 1 end).
  destruct (drain hstate hgo hgos (h_step w) h_returned (fun g => List.length (htodo g)) (fun _ g => left g)) with (s := h_sched w (h_start s css) q) as [q' Q].
  - apply h_step_len.
  - intros st i j D. destruct (nth_error (hgos st) i) as [g0|] eqn:E; [now apply (h_step_go w _ _ _ E)|now rewrite h_step_none].
  - intros st i g E. destruct (h_step_go w st i g E) as (_ & _ & N & _). unfold h_gstep in N. unfold left. destruct (hph g) eqn:P.
    + destruct (htodo g) as [|[x|] cs] eqn:T; [left; now split| |]; right; eexists; (split; [exact N|]); left; cbn [List.length].
      * destruct (String.length x =? 0); [cbn; lia|]. destruct (wlen w); cbn; lia.
      * cbn. lia.
    + right. eexists. split; [exact N|]. right. destruct (wlen w); cbn; lia.
    + right. eexists. split; [exact N|]. right. cbn. lia.
    + right. eexists. split; [exact N|]. right. cbn. lia.
  - exists q'. rewrite h_app. exact Q.
Qed.
Print Assumptions C171_parts.
Print Assumptions C171_length.
Print Assumptions C171_sole.
Print Assumptions C171_returns.
