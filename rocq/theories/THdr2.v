(* C172: texts of a search filter that nobody gave. *)
From Coq Require Import Ascii String List PeanoNat Bool Lia.
From Verif Require Import GoStr MHeap MHdr SHdr PWhole THdr.
Import ListNotations.
Open Scope list_scope.
Open Scope nat_scope.

(* ---- one call of Set beside one of String ---- *)
Section One.
Variables (w : hw) (s x : string).
Hypothesis Hx : x <> EmptyString.
Notation at_ q := (h_sched w (h_start s [[HSet x]; [HString]]) q).
(* the words when n of them are written *)
Definition dat (n : nat) : string := match n with 0 => s | 1 => if wlen w then s else x | _ => x end.
Definition num (n : nat) : nat := match n with 0 => String.length s | 1 => if wlen w then String.length x else String.length s | _ => String.length x end.
Definition writer (n : nat) : hgo := match n with 0 => MkHg [HSet x] HIdle [] | 1 => MkHg [] (HHalf x) [] | _ => MkHg [] HIdle [HDone] end.
Definition reads (n : nat) (g : hgo) : Prop :=
  g = MkHg [HString] HIdle [] \/
  (exists k, k <= n /\ g = MkHg [] (if rlen w then HSawL (num k) else HSawD (dat k)) []) \/
  exists k m, k <= m /\ m <= n /\ g = MkHg [] HIdle [HText (if rlen w then view (tail w) (dat m) (num k) else view (tail w) (dat k) (num m))].
Definition one_inv (st : hstate) : Prop := exists n g, n <= 2 /\ hgos st = [writer n; g] /\ hdata st = dat n /\ hlen st = num n /\ reads n g.
Lemma one_run q : one_inv (at_ q).
Proof.
  induction q as [|i q IH] using rev_ind.
  - exists 0, (MkHg [HString] HIdle []). split; [lia|]. split; [reflexivity|]. split; [reflexivity|]. split; [reflexivity|]. now left.
  - rewrite h_snoc. destruct IH as (n & g & Ln & G & D & L & R). unfold h_step. rewrite G, D, L. destruct i as [|[|i]]; cbn [nth_error].
    + assert (W : n < 2 /\ h_gstep w (dat n) (num n) (writer n) = (dat (S n), num (S n), writer (S n)) \/ h_gstep w (dat n) (num n) (writer n) = (dat n, num n, writer n)).
      { apply len_filled in Hx. destruct n as [|[|[|n]]]; [left|left|right|lia]; (try (split; [lia|])); unfold h_gstep; cbn [writer hph htodo hres_of]; try rewrite Hx; destruct (wlen w) eqn:E; unfold dat, num; try rewrite E; reflexivity. }
      assert (Up : reads (S n) g) by (destruct R as [->|[(k & A & ->)|(k & m & A & B & ->)]]; [now left|right; left; exists k; split; [lia|reflexivity]|right; right; exists k, m; split; [lia|]; split; [lia|reflexivity]]).
      destruct W as [[Lt W]|W]; rewrite W; [exists (S n)|exists n]; exists g; (split; [lia|]); now repeat split.
    + exists n. unfold h_gstep. destruct R as [->|[(k & A & ->)|(k & m & A & B & ->)]].
      * cbn [hph htodo hres_of]. eexists. split; [assumption|]. split; [reflexivity|]. split; [reflexivity|]. split; [reflexivity|]. right. left. exists n. split; [lia|reflexivity].
      * cbn [hph htodo hres_of]. destruct (rlen w) eqn:E; cbn [hph htodo hres_of]; eexists; (split; [assumption|]); (split; [reflexivity|]); (split; [reflexivity|]); (split; [reflexivity|]);
        right; right; exists k, n; (split; [assumption|]); (split; [lia|]); now rewrite E.
      * cbn [hph htodo hres_of]. eexists. split; [assumption|]. split; [reflexivity|]. split; [reflexivity|]. split; [reflexivity|]. right. right. now exists k, m.
    + assert (nth_error (@nil hgo) i = None) as -> by now destruct i. exists n, g. now repeat split.
Qed.
End One.
(* What String beside one call of Set returns is exactly: the old text, the new one, as many of
   the new bytes as the old text has (unless the number is written first and read last), as many
   of the old bytes as the new text has (unless it is written last and read first). *)
Theorem C172_exact : forall w s x t, x <> EmptyString ->
  (exists q g, nth_error (hgos (h_sched w (h_start s [[HSet x]; [HString]]) q)) 1 = Some g /\ hres_of g = [HText t]) <->
  t = s \/ t = x \/ (wlen w = true -> rlen w = true) /\ t = view (tail w) x (String.length s) \/ (rlen w = true -> wlen w = true) /\ t = view (tail w) s (String.length x).
Proof.
  intros w s x t Hx. split.
  - intros (q & g & E & R). destruct (one_run w s x Hx q) as (n & g' & Ln & G & _ & _ & Q). rewrite G in E. injection E as ->.
    destruct Q as [->|[(k & _ & ->)|(k & m & A & B & ->)]]; [discriminate R|discriminate R|]. injection R as <-.
    unfold dat, num. destruct k as [|[|[|k]]], m as [|[|[|m]]]; try lia; destruct (wlen w), (rlen w); rewrite ?view_all; auto;
      (right; right; left; split; [|reflexivity]; now intros) || (right; right; right; split; [|reflexivity]; now intros).
  - destruct x as [|c x]; [now elim Hx|]. set (y := String c x).
    assert (Do : forall q, hres_of (nth 1 (hgos (h_sched w (h_start s [[HSet y]; [HString]]) q)) (MkHg [] HIdle [])) = [HText t] ->
      exists q g, nth_error (hgos (h_sched w (h_start s [[HSet y]; [HString]]) q)) 1 = Some g /\ hres_of g = [HText t]).
    { intros q H. exists q. destruct (nth_error (hgos (h_sched w (h_start s [[HSet y]; [HString]]) q)) 1) as [g|] eqn:E; [|apply nth_error_None in E; rewrite nth_overflow in H by assumption; discriminate H].
      exists g. split; [reflexivity|]. now rewrite (nth_error_nth _ _ _ E) in H. }
    destruct w as [[] [] tl]; cbn [wlen rlen tail]; intros [->|[->|[[I ->]|[I ->]]]]; try (discriminate (I eq_refl)).
    + apply (Do [1; 1]). cbn. now rewrite view_all.
    + apply (Do [0; 0; 1; 1]). transitivity [HText (view tl y (String.length y))]; [reflexivity|now rewrite view_all].
    + apply (Do [1; 0; 0; 1]). reflexivity.
    + apply (Do [0; 1; 1]). reflexivity.
    + apply (Do [1; 1]). cbn. now rewrite view_all.
    + apply (Do [0; 0; 1; 1]). transitivity [HText (view tl y (String.length y))]; [reflexivity|now rewrite view_all].
    + apply (Do [0; 1; 1]). reflexivity.
    + apply (Do [1; 1]). cbn. now rewrite view_all.
    + apply (Do [0; 0; 1; 1]). transitivity [HText (view tl y (String.length y))]; [reflexivity|now rewrite view_all].
    + apply (Do [0; 1; 1]). reflexivity.
    + apply (Do [1; 1]). cbn. now rewrite view_all.
    + apply (Do [0; 0; 1; 1]). transitivity [HText (view tl y (String.length y))]; [reflexivity|now rewrite view_all].
    + apply (Do [0; 1; 1]). reflexivity.
    + apply (Do [1; 0; 0; 1]). reflexivity.
Qed.

(* ---- two calls of Set ---- *)
Section Two.
Variables (w : hw) (s x y : string).
Hypothesis Hx : x <> EmptyString.
Hypothesis Hy : y <> EmptyString.
Notation at_ q := (h_sched w (h_start s [[HSet x]; [HSet y]]) q).
Definition sets (z : string) (n : nat) : hgo := match n with 0 => MkHg [HSet z] HIdle [] | 1 => MkHg [] (HHalf z) [] | _ => MkHg [] HIdle [HDone] end.
(* whether the first word, the number is written *)
Definition hasd (n : nat) : bool := match n with 0 => false | 1 => negb (wlen w) | _ => true end.
Definition hasl (n : nat) : bool := match n with 0 => false | 1 => wlen w | _ => true end.
Definition two_ok (st : hstate) : Prop := exists n m, hgos st = [sets x n; sets y m] /\
  (hasd n || hasd m = true -> hdata st = x \/ hdata st = y) /\ (hasl n || hasl m = true -> hlen st = String.length x \/ hlen st = String.length y).
Lemma sets_step z n d l : z <> EmptyString ->
  h_gstep w d l (sets z n) = (if hasd (S n) && negb (hasd n) then z else d, if hasl (S n) && negb (hasl n) then String.length z else l, sets z (S n)).
Proof. intros H. apply len_filled in H. destruct n as [|[|n]]; unfold h_gstep, hasd, hasl; cbn [sets hph htodo hres_of]; [rewrite H| |]; destruct (wlen w); reflexivity. Qed.
Lemma two_okay q : two_ok (at_ q).
Proof.
  induction q as [|i q IH] using rev_ind.
  - exists 0, 0. split; [reflexivity|]. split; discriminate.
  - rewrite h_snoc. destruct IH as (n & m & G & D & L). unfold h_step. rewrite G. destruct i as [|[|i]]; cbn [nth_error].
    + rewrite sets_step by assumption. exists (S n), m. split; [reflexivity|]. cbn [hdata hlen].
      split; intros H; [destruct (hasd (S n)), (hasd n), (hasd m)|destruct (hasl (S n)), (hasl n), (hasl m)]; cbn in *; try discriminate H; auto.
    + rewrite sets_step by assumption. exists n, (S m). split; [reflexivity|]. cbn [hdata hlen].
      split; intros H; [destruct (hasd (S m)), (hasd n), (hasd m)|destruct (hasl (S m)), (hasl n), (hasl m)]; cbn in *; try discriminate H; auto.
    + assert (nth_error (@nil hgo) i = None) as -> by now destruct i. now exists n, m.
Qed.
End Two.
(* Two calls of Set leave, whichever word is written first, exactly as many bytes of one of the
   two texts as one of the two has. *)
Theorem C172_two : forall w s x y t, x <> EmptyString -> y <> EmptyString ->
  (exists q, let st := h_sched w (h_start s [[HSet x]; [HSet y]]) q in (forall g, In g (hgos st) -> h_returned g) /\ h_value w st = t) <->
  exists d z, (d = x \/ d = y) /\ (z = x \/ z = y) /\ t = view (tail w) d (String.length z).
Proof.
  intros w s x y t Hx Hy. split.
  - intros (q & R & V). destruct (two_okay w s x y Hx Hy q) as (n & m & G & D & L).
    destruct (R (sets x n)) as [T P]; [rewrite G; now left|]. assert (N2 : 2 <= n) by (destruct n as [|[|n]]; [discriminate T|discriminate P|lia]).
    destruct n as [|[|n]]; try lia. cbn [hasd hasl orb] in D, L. specialize (D eq_refl). specialize (L eq_refl). set (st := h_sched w (h_start s [[HSet x]; [HSet y]]) q) in *.
    exists (hdata st). unfold h_value in V. destruct L as [L|L]; rewrite L in V; [exists x|exists y]; (split; [assumption|]); (split; [|now symmetry]); [now left|now right].
  - destruct x as [|c x]; [now elim Hx|]. destruct y as [|e y]; [now elim Hy|]. set (u := String c x). set (v := String e y).
    intros (d & z & D & Z & ->).
    assert (Do : forall q, let st := h_sched w (h_start s [[HSet u]; [HSet v]]) q in hgos st = [MkHg [] HIdle [HDone]; MkHg [] HIdle [HDone]] -> hdata st = d -> hlen st = String.length z ->
      exists q, let st := h_sched w (h_start s [[HSet u]; [HSet v]]) q in (forall g, In g (hgos st) -> h_returned g) /\ h_value w st = view (tail w) d (String.length z)).
    { intros q st A B C. exists q. fold st. split; [intros g K; rewrite A in K; destruct K as [<-|[<-|[]]]; now split|]. unfold h_value. now rewrite B, C. }
    destruct w as [[] rl tl]; cbn [tail] in *; destruct D as [-> | ->], Z as [-> | ->].
    + apply (Do [1; 1; 0; 0]); reflexivity.
    + apply (Do [0; 1; 1; 0]); reflexivity.
    + apply (Do [1; 0; 0; 1]); reflexivity.
    + apply (Do [0; 0; 1; 1]); reflexivity.
    + apply (Do [1; 1; 0; 0]); reflexivity.
    + apply (Do [1; 0; 0; 1]); reflexivity.
    + apply (Do [0; 1; 1; 0]); reflexivity.
    + apply (Do [0; 0; 1; 1]); reflexivity.
Qed.
Fixpoint big (n : nat) : string := match n with 0 => "a" | S n => String "a"%char (big n) end.
Lemma big_len n : String.length (big n) = S n.
Proof. induction n as [|n IH]; cbn; [reflexivity|now rewrite IH]. Qed.
(* String beside Set can return bytes of the memory behind a text, whichever words are written
   and read first. *)
Theorem C172_beyond : forall w n, exists s x q g d, x <> EmptyString /\ (d = s \/ d = x) /\
  nth_error (hgos (h_sched w (h_start s [[HSet x]; [HString]]) q)) 1 = Some g /\ hres_of g = [HText (d ++ tail w d (S n))%string].
Proof.
  intros w n. assert (V : forall d l, String.length d + S n = l -> view (tail w) d l = (d ++ tail w d (S n))%string).
  { intros d l <-. unfold view. replace (String.length d + S n <=? String.length d) with false by (symmetry; apply Nat.leb_gt; lia). do 2 f_equal. lia. }
  assert (B : String.length "b" + S n = String.length (big (S n))) by (rewrite big_len; reflexivity).
  destruct (wlen w) eqn:Wl, (rlen w) eqn:Rl.
  - destruct (proj2 (C172_exact w "b" (big (S n)) ("b" ++ tail w "b" (S n)) ltac:(discriminate))) as (q & g & E & R).
    { right. right. right. split; [now intros|]. now rewrite V. }
    exists "b"%string, (big (S n)), q, g, "b"%string. split; [discriminate|]. split; [now left|]. now split.
  - destruct (proj2 (C172_exact w "b" (big (S n)) ("b" ++ tail w "b" (S n)) ltac:(discriminate))) as (q & g & E & R).
    { right. right. right. split; [now intros|]. now rewrite V. }
    exists "b"%string, (big (S n)), q, g, "b"%string. split; [discriminate|]. split; [now left|]. now split.
  - destruct (proj2 (C172_exact w (big (S n)) "b" ("b" ++ tail w "b" (S n)) ltac:(discriminate))) as (q & g & E & R).
    { right. right. left. split; [now intros; congruence|]. now rewrite V. }
    exists (big (S n)), "b"%string, q, g, "b"%string. split; [discriminate|]. split; [now right|]. now split.
  - destruct (proj2 (C172_exact w (big (S n)) "b" ("b" ++ tail w "b" (S n)) ltac:(discriminate))) as (q & g & E & R).
    { right. right. left. split; [now intros; congruence|]. now rewrite V. }
    exists (big (S n)), "b"%string, q, g, "b"%string. split; [discriminate|]. split; [now right|]. now split.
Qed.
(* A text that String returns, and that a filter has when all calls have returned, was given:
   false, whichever words are written and read first. *)
Theorem C172_refuted : forall w,
  (exists s css q i g t, nth_error (hgos (h_sched w (h_start s css) q)) i = Some g /\ In (HText t) (hres_of g) /\ ~ h_text s css t) /\
  exists s css q, let st := h_sched w (h_start s css) q in (forall g, In g (hgos st) -> h_returned g) /\ ~ h_text s css (h_value w st).
Proof.
  intros w. split.
  - destruct (wlen w) eqn:Wl.
    + destruct (proj2 (C172_exact w "(objectClass=*)" "(cn=*)" "(objec" ltac:(discriminate))) as (q & g & E & R); [right; right; right; split; [now intros|reflexivity]|].
      exists "(objectClass=*)"%string, [[HSet "(cn=*)"]; [HString]], q, 1, g, "(objec"%string. split; [assumption|]. split; [rewrite R; now left|].
      intros [H|(cs & [<-|[<-|[]]] & [H|[]] & _)]; discriminate H.
    + destruct (proj2 (C172_exact w "(cn=*)" "(objectClass=*)" "(objec" ltac:(discriminate))) as (q & g & E & R); [right; right; left; split; [congruence|reflexivity]|].
      exists "(cn=*)"%string, [[HSet "(objectClass=*)"]; [HString]], q, 1, g, "(objec"%string. split; [assumption|]. split; [rewrite R; now left|].
      intros [H|(cs & [<-|[<-|[]]] & [H|[]] & _)]; discriminate H.
  - destruct (proj2 (C172_two w EmptyString "(objectClass=*)" "(cn=*)" "(objec" ltac:(discriminate) ltac:(discriminate))) as (q & R & V).
    { exists "(objectClass=*)"%string, "(cn=*)"%string. split; [now left|]. split; [now right|reflexivity]. }
    exists EmptyString, [[HSet "(objectClass=*)"]; [HSet "(cn=*)"]], q. split; [exact R|]. cbv zeta in V. rewrite V.
    intros [H|(cs & [<-|[<-|[]]] & [H|[]] & _)]; discriminate H.
Qed.
Print Assumptions C172_exact.
Print Assumptions C172_two.
Print Assumptions C172_beyond.
Print Assumptions C172_refuted.

(* ---- concrete cases ---- *)
Example C171_witness : let w := MkHw true false (fun _ n => string_of_list_ascii (repeat "?"%char n)) in
  let st := h_sched w (h_start "(cn=a)" [[HSet "(cn=b)"; HString; HSet ""]; [HString; HString]]) [1; 0; 0; 1; 0; 1; 0; 1; 0] in
  Forall h_returned (hgos st) /\ map h_said (hgos st) = [["(cn=b)"%string]; ["(cn=a)"%string; "(cn=b)"%string]] /\ h_value w st = "(cn=b)"%string.
Proof. vm_compute. split; [|now split]. repeat constructor. Qed.
Example C172_witness : let w := MkHw false true (fun _ n => string_of_list_ascii (repeat "?"%char n)) in
  let st := h_sched w (h_start "(objectClass=*)" [[HSet "(cn=b)"]; [HString]]) [0; 1; 1; 0] in
  Forall h_returned (hgos st) /\ map h_said (hgos st) = [[]; ["(cn=b)?????????"%string]].
Proof. vm_compute. split; [|reflexivity]. repeat constructor. Qed.
