(* Lemmas on the conversion of parsed trees (C41, C42). *)
From Coq Require Import String Ascii List PeanoNat NArith ZArith Bool Lia Permutation.
From Verif Require Import GoStr GoStrFacts MMisc MLists MKw SKw PKw MRule PRule MConv MTree STree.
Import ListNotations.
Open Scope string_scope.

Section TreeInd.
Variable P : tree -> Prop.
Hypothesis HL : forall c, P (Leaf c).
Hypothesis HS : forall w p f d ks, Forall P ks -> P (Stk w p f d ks).
Fixpoint tree_ind' (t : tree) : P t :=
  match t with
  | Leaf c => HL c
  | Stk w p f d ks => HS w p f d ks ((fix go l : Forall P l := match l with [] => Forall_nil _ | k :: r => Forall_cons _ (tree_ind' k) (go r) end) ks)
  end.
End TreeInd.
Section PTreeInd.
Variable P : ptree -> Prop.
Hypothesis HC : forall r, P (PCond r).
Hypothesis HS : forall k p ks, Forall P ks -> P (PStk k p ks).
Hypothesis HN : P PNeither.
Fixpoint ptree_ind' (t : ptree) : P t :=
  match t with
  | PCond r => HC r
  | PStk k p ks => HS k p ks ((fix go l : Forall P l := match l with [] => Forall_nil _ | k :: r => Forall_cons _ (ptree_ind' k) (go r) end) ks)
  | PNeither => HN
  end.
End PTreeInd.

(* ---- kinds ---- *)
Lemma map_bytes_app f a b : map_bytes f (a ++ b) = map_bytes f a ++ map_bytes f b.
Proof. induction a as [|c a IH]; [reflexivity|]. cbn [append map_bytes]. now rewrite IH. Qed.
Lemma srev_map f s : srev (map_bytes f s) = map_bytes f (srev s).
Proof.
  induction s as [|c s IH]; [reflexivity|]. cbn [map_bytes]. rewrite !srev_cons, IH, map_bytes_app. reflexivity.
Qed.
Lemma ascii_all (f : ascii -> bool) : forallb f (map ascii_of_nat (seq 0 256)) = true -> forall c, f c = true.
Proof.
  intros H c. apply (proj1 (forallb_forall _ _) H). rewrite <- (ascii_nat_embedding c). apply in_map, in_seq. split; [lia|].
  cbn. apply nat_ascii_bounded.
Qed.
Lemma upper_lower u l : (forallb (fun c => Bool.eqb (Ascii.eqb u (upper_byte c)) (Ascii.eqb l (lower_byte c))) (map ascii_of_nat (seq 0 256))) = true ->
  forall c, Ascii.eqb u (upper_byte c) = Ascii.eqb l (lower_byte c).
Proof. intros H c. apply Bool.eqb_prop. exact (ascii_all (fun c => Bool.eqb (Ascii.eqb u (upper_byte c)) (Ascii.eqb l (lower_byte c))) H c). Qed.
Lemma suffix_not k : has_suffix "NOT" (uc k) = has_suffix "not" (map_bytes lower_byte k).
Proof.
  unfold has_suffix, uc. rewrite !srev_map. cbn [srev srev_app].
  assert (T := upper_lower "T" "t" eq_refl). assert (O := upper_lower "O" "o" eq_refl). assert (N := upper_lower "N" "n" eq_refl).
  destruct (srev k) as [|a [|b [|c r]]]; cbn [map_bytes has_prefix]; rewrite ?T, ?O, ?N; reflexivity.
Qed.
Lemma two_fixed a b x s : no_byte x (two_to_one a b x s) = true -> two_to_one a b x s = s.
Proof.
  remember (String.length s) as n eqn:E. assert (L : (String.length s <= n)%nat) by lia. clear E. revert s L.
  induction n as [|n IH]; intros [|c [|d r]] L H; try reflexivity; cbn in L; try lia.
  cbn [two_to_one] in *. destruct (_ && _)%bool eqn:E.
  - rewrite no_byte_cons, Ascii.eqb_refl in H. discriminate.
  - rewrite no_byte_cons in H. apply andb_true_iff in H as [_ H]. f_equal. apply (IH (String d r)); [cbn; lia|exact H].
Qed.
Lemma three_fixed a b e x s : no_byte x (three_to_one a b e x s) = true -> three_to_one a b e x s = s.
Proof.
  remember (String.length s) as n eqn:E. assert (L : (String.length s <= n)%nat) by lia. clear E. revert s L.
  induction n as [|n IH]; intros [|c [|d [|f r]]] L H; try reflexivity; cbn in L; try lia.
  cbn [three_to_one] in *. destruct (_ && _ && _)%bool eqn:E.
  - rewrite no_byte_cons, Ascii.eqb_refl in H. discriminate.
  - rewrite no_byte_cons in H. apply andb_true_iff in H as [_ H]. f_equal. apply (IH (String d (String f r))); [cbn; lia|exact H].
Qed.
Lemma two_none a b x s : no_byte a s = true -> two_to_one a b x s = s.
Proof.
  remember (String.length s) as n eqn:E. assert (L : (String.length s <= n)%nat) by lia. clear E. revert s L.
  induction n as [|n IH]; intros [|c [|d r]] L H; try reflexivity; cbn in L; try lia.
  rewrite no_byte_cons in H. apply andb_true_iff in H as [Hc H]. cbn [two_to_one].
  rewrite Ascii.eqb_sym in Hc. apply negb_true_iff in Hc. rewrite Hc. cbn [andb]. f_equal. apply (IH (String d r)); [cbn; lia|exact H].
Qed.
Lemma three_none a b e x s : no_byte a s = true -> three_to_one a b e x s = s.
Proof.
  remember (String.length s) as n eqn:E. assert (L : (String.length s <= n)%nat) by lia. clear E. revert s L.
  induction n as [|n IH]; intros [|c [|d [|f r]]] L H; try reflexivity; cbn in L; try lia.
  rewrite no_byte_cons in H. apply andb_true_iff in H as [Hc H]. cbn [three_to_one].
  rewrite Ascii.eqb_sym in Hc. apply negb_true_iff in Hc. rewrite Hc. cbn [andb]. f_equal. apply (IH (String d (String f r))); [cbn; lia|exact H].
Qed.
Lemma no_byte_lower x s : lower_byte x = x -> no_byte x (map_bytes lower_byte s) = true -> no_byte x s = true.
Proof.
  intros X. induction s as [|c s IH]; [easy|]. cbn [map_bytes]. rewrite !no_byte_cons. intros H.
  apply andb_true_iff in H as [A B]. rewrite (IH B), andb_true_r. destruct (Ascii.eqb_spec x c) as [<-|_]; [|reflexivity].
  rewrite X, Ascii.eqb_refl in A. discriminate A.
Qed.
(* on a lower-case ASCII word without k and s folding is lowering *)
Lemma fold_low k w : is_ascii w = true -> no_byte "s" w = true -> no_byte "k" w = true ->
  fold_key k = w <-> map_bytes lower_byte k = w.
Proof.
  intros A S K. unfold fold_key. split.
  - intros H. assert (H2 := no_byte_lower "s" _ eq_refl (eq_ind_r (fun z => no_byte "s" z = true) S H)).
    rewrite (two_fixed _ _ _ _ H2) in H.
    assert (H3 := no_byte_lower "k" _ eq_refl (eq_ind_r (fun z => no_byte "k" z = true) K H)).
    now rewrite (three_fixed _ _ _ _ _ H3) in H.
  - intros H. assert (N : forall x, lower_byte x = x -> no_byte x w = true -> no_byte x k = true).
    { intros x X Nx. apply (no_byte_lower x k X). now rewrite H. }
    assert (NA : forall x, ascii_byte x = false -> no_byte x w = true).
    { intros x X. clear -A X. induction w as [|c w IH]; [reflexivity|]. cbn in A. apply andb_true_iff in A as [Ac A].
      rewrite no_byte_cons, (IH A), andb_true_r. destruct (Ascii.eqb_spec x c) as [->|_]; [congruence|reflexivity]. }
    rewrite three_none by (apply N; [reflexivity|now apply NA]). rewrite two_none by (apply N; [reflexivity|now apply NA]). exact H.
Qed.
Lemma word_kind k : wordToStack k = kind_word k.
Proof.
  unfold wordToStack, kind_word. rewrite suffix_not. destruct (has_suffix _ _); [reflexivity|].
  assert (E : forall w u, fold_key u = w -> is_ascii w = true -> no_byte "s" w = true -> no_byte "k" w = true ->
            eqfold k u = String.eqb (map_bytes lower_byte k) w).
  { intros w u U A S K. unfold eqfold. rewrite U. destruct (String.eqb_spec (map_bytes lower_byte k) w) as [Y|Y].
    - apply (fold_low k w A S K) in Y. rewrite Y. apply String.eqb_refl.
    - apply String.eqb_neq. intros Z. apply Y. now apply (fold_low k w A S K). }
  rewrite (E "and" "AND"), (E "or" "OR"); reflexivity.
Qed.

(* ---- single rules ---- *)
Lemma br_paren_id r : br_paren (match r with Some c => c_paren c | None => false end) r = r.
Proof. destruct r as [[]|]; reflexivity. Qed.
Lemma assert_bind_known en key vals e : assert_bind en key vals = AOk e -> exists k, key = bindkw_const k.
Proof.
  unfold assert_bind. intros H.
  destruct (N.eqb_spec key BindUDN) as [->|_]; [now exists UserDN|].
  destruct (N.eqb_spec key BindRDN) as [->|_]; [now exists RoleDN|].
  destruct (N.eqb_spec key BindGDN) as [->|_]; [now exists GroupDN|]. cbn [orb] in H.
  destruct (N.eqb_spec key BindIP) as [->|_]; [now exists IPAddr|].
  destruct (N.eqb_spec key BindDNS) as [->|_]; [now exists DNSName|].
  destruct (N.eqb_spec key BindUAT) as [->|_]; [now exists UserAttr|].
  destruct (N.eqb_spec key BindGAT) as [->|_]; [now exists GroupAttr|]. cbn [orb] in H.
  destruct (N.eqb_spec key BindDoW) as [->|_]; [now exists DayOfWeek|].
  destruct (N.eqb_spec key BindToD) as [->|_]; [now exists TimeOfDay|].
  destruct (N.eqb_spec key BindAM) as [->|_]; [now exists AuthMethod|].
  destruct (N.eqb_spec key BindSSF) as [->|_]; [now exists StrengthFactor|]. discriminate.
Qed.
Lemma bkw_round s : matchBKW (bkw_string (matchBKW s)) = matchBKW s.
Proof.
  destruct (matchBKW_cases s) as [->|(k & -> & _)]; [reflexivity|]. now destruct k.
Qed.
Lemma tkw_round s : matchTKW (tkw_string (matchTKW s)) = matchTKW s.
Proof.
  destruct (matchTKW_cases s) as [->|(k & -> & _)]; [reflexivity|]. now destruct k.
Qed.
Lemma quote_style_keeps style c : exists c', br_set_quote_style style (Some c) = Some c' /\
  c_kw c' = c_kw c /\ c_op c' = c_op c /\ c_paren c' = c_paren c /\ c_pad c' = c_pad c.
Proof.
  cbn [br_set_quote_style]. destruct (c_ex c) as [[s|[] b l|z l]|]; eexists; (split; [reflexivity|]); now repeat split.
Qed.
Lemma tquote_style_keeps style c : exists c', tr_set_quote_style style (Some c) = Some c' /\
  c_kw c' = c_kw c /\ c_op c' = c_op c /\ c_paren c' = c_paren c /\ c_pad c' = c_pad c.
Proof.
  cbn [tr_set_quote_style]. destruct (c_ex c) as [[s|[] b l|z l]|]; eexists; (split; [reflexivity|]); now repeat split.
Qed.
Lemma br_assert_keeps en r r' : br_assert en r = ROk r' ->
  exists c c' k, r = Some c /\ r' = Some c' /\ matchBKW (c_kw c) = bindkw_const k /\
    c_kw c' = c_kw c /\ c_op c' = c_op c /\ c_paren c' = c_paren c /\ c_pad c' = c_pad c.
Proof.
  unfold br_assert. destruct r as [c|]; [|discriminate]. destruct (c_ex c) as [[s|t b l|style vals]|]; try discriminate.
  destruct (assert_bind _ _ _) as [| |ex] eqn:A; try discriminate. intros H. injection H as <-.
  apply assert_bind_known in A as [k A]. cbn [br_keyword] in A. rewrite bkw_round in A. 
  destruct (quote_style_keeps style (with_ex c (Some ex))) as (c' & Q & B). exists c, c', k.
  split; [reflexivity|]. split; [exact Q|]. split; [exact A|]. exact B.
Qed.
Lemma cond_string_nonempty c : c_kw c <> "" -> cond_string c <> "".
Proof.
  intros H E. unfold cond_string, wrap_paren in E. destruct (c_paren c); [discriminate|]. destruct (c_kw c); [now apply H|discriminate].
Qed.
Lemma kw_nonempty s k : matchBKW s = bindkw_const k -> s <> "".
Proof. intros H ->. destruct k; discriminate H. Qed.
Lemma push_converted en r r' clean : br_assert en r = ROk r' ->
  exists c', r' = Some c' /\ brs_push1 clean (PRule r') = (clean ++ [Leaf c'])%list /\ cond_string c' <> "".
Proof.
  intros H. destruct (br_assert_keeps _ _ _ H) as (c & c' & k & -> & -> & K & E & _). exists c'. split; [reflexivity|]. split.
  - cbn [brs_push1]. rewrite bkw_round, E, K. now destruct k.
  - apply cond_string_nonempty. rewrite E. now apply (kw_nonempty _ k).
Qed.

(* ---- the loop ---- *)
Section Conv.
Variable en : env.
Variable pad : bool.
Variable notsep : string.
Variable zero : string.
Notation convert := (convert en pad notsep zero).
Notation cut := (cut (shows zero)).
Fixpoint cloop (clean : list tree) (ks : list ptree) : kres :=
  match ks with
  | [] => KOk clean
  | m :: rest =>
      match m with
      | PCond r =>
          match br_assert en (br_paren (match r with Some c => c_paren c | None => false end) r) with
          | RPanic => KPanic
          | RErr => KOk clean
          | ROk r' => cloop (brs_push1 clean (PRule r')) rest
          end
      | PStk _ p _ =>
          match convert m with
          | COk sub => cloop (brs_push1 clean (PStack (Some (uncloakBindRules (brs_paren p sub))))) rest
          | CZero => cloop clean rest
          | CFail => KFail
          | CPanic => KPanic
          end
      | PNeither => cloop clean rest
      end
  end.
Definition finish (w : word) (r : kres) : cres :=
  match r with
  | KPanic => CPanic
  | KFail => CFail
  | KOk l => let clean := Stk w false false pad l in
             if (0 <? String.length (tstr notsep clean))%nat then COk (uncloakBindRules clean) else CFail
  end.
Lemma convert_eq k p ks : convert (PStk k p ks) = match wordToStack k with None => unknown_word zero | Some w => finish w (cloop [] ks) end.
Proof. reflexivity. Qed.
Lemma unknown_word_eq : unknown_word zero = if shows zero then CZero else CFail.
Proof. unfold unknown_word, shows. destruct zero; reflexivity. Qed.
Lemma convert_unknown k p ks : known_kind k = false -> convert (PStk k p ks) = if shows zero then CZero else CFail.
Proof. intros H. rewrite convert_eq, word_kind, <- unknown_word_eq. unfold known_kind in H. now destruct (kind_word k). Qed.
Lemma convert_zero m : convert m = CZero -> shows zero = true /\ match m with PStk k _ _ => known_kind k = false | _ => True end.
Proof.
  destruct m as [r|k p ks|]; intros H; [change (unknown_word zero = CZero) in H| |change (unknown_word zero = CZero) in H];
    try (rewrite unknown_word_eq in H; destruct (shows zero); [now split|discriminate]).
  rewrite convert_eq, word_kind in H. unfold known_kind. destruct (kind_word k) as [w|].
  - exfalso. destruct (cloop [] ks); cbn [finish] in H; try discriminate. cbn zeta in H. destruct (_ <? _)%nat in H; discriminate.
  - rewrite unknown_word_eq in H. destruct (shows zero); [now split|discriminate].
Qed.
Fixpoint cut_list (ks : list ptree) : list ptree :=
  match ks with
  | [] => []
  | m :: rest =>
      match m with
      | PCond r => match br_assert en r with ROk _ => m :: cut_list rest | _ => [] end
      | PStk k _ _ => if (shows zero && negb (known_kind k))%bool then cut_list rest else cut en m :: cut_list rest
      | PNeither => cut_list rest
      end
  end.
Lemma cut_eq k p ks : cut en (PStk k p ks) = PStk k p (cut_list ks).
Proof. reflexivity. Qed.

(* members of a list built by the loop are shown *)
Definition visible (t : tree) : Prop := tstr notsep t <> "".
Definition is_stk (t : tree) : Prop := match t with Stk _ _ _ _ _ => True | Leaf _ => False end.
Lemma nonempty_spec l : nonempty l = [] <-> (forall s, In s l -> s = "").
Proof.
  unfold nonempty. induction l as [|a l IH]; [split; [intros _ s []|reflexivity]|]. cbn [filter].
  destruct (Nat.eqb_spec (String.length a) 0) as [E|E]; cbn [negb].
  - rewrite IH. split; intros H s; [intros [<-|Hs]; [now apply length0|now apply H]|intros Hs; apply H; now right].
  - split; [discriminate|]. intros H. exfalso. apply E. now rewrite (H a (or_introl eq_refl)).
Qed.
Lemma nonempty_in l s : In s (nonempty l) <-> In s l /\ s <> "".
Proof.
  unfold nonempty. rewrite filter_In, negb_true_iff, Nat.eqb_neq. split; intros [A B]; (split; [exact A|]).
  - intros ->. now apply B.
  - intros E. now apply B, length0.
Qed.
Lemma join_empty sep l : (forall s, In s l -> s <> "") -> join sep l = "" -> l = [].
Proof.
  destruct l as [|a [|b l]]; [easy| |]; intros H E.
  - cbn in E. exfalso. now apply (H a (or_introl eq_refl)).
  - rewrite join_cons in E. exfalso. apply (H a (or_introl eq_refl)). destruct a; [reflexivity|discriminate].
Qed.
Lemma with_not_nonempty t s : s <> "" -> with_not t s <> "".
Proof. destruct t as [c|[] p f d ks]; cbn; trivial. destruct f; discriminate. Qed.
Lemma stk_shown w p f d ks : Forall visible ks -> (visible (Stk w p f d ks) <-> ks <> [] \/ p = true).
Proof.
  intros V. unfold visible. cbn [tstr]. destruct p; cbn [wrap_paren]; [split; [now right|discriminate]|]. split.
  - intros H. left. intros ->. now apply H.
  - intros [H|H]; [|discriminate]. intros E. apply join_empty in E; [|intros s Hs; now apply nonempty_in in Hs].
    destruct ks as [|k ks]; [easy|]. inversion_clear V as [|? ? Vk _]. assert (X := proj1 (nonempty_spec _) E (with_not k (tstr notsep k)) (or_introl eq_refl)).
    now apply (with_not_nonempty k _ Vk).
Qed.

Lemma cloaked_child k : isCloaked k = true -> exists w f d x, k = Stk w false f d [x] /\ is_stk x /\ w <> WNot.
Proof.
  destruct k as [c|w p f d ks]; [discriminate|]. intros H.
  assert (X : w <> WNot) by (intros ->; discriminate H).
  destruct ks as [|x [|y ks]]; cbn in H; try (destruct w; discriminate H).
  - destruct x as [c|w' p' f' d' ks']; [destruct w; discriminate H|]. exists w, f, d, (Stk w' p' f' d' ks'). split; [|now split].
    destruct w; try discriminate H; destruct p; try discriminate H; reflexivity.
  - destruct x as [c|w' p' f' d' ks']; destruct w; discriminate H.
Qed.
Lemma uncloak_spec (neg : list bool -> bool) (v : cond -> bool) : forall t, isCloaked t = true ->
  is_stk (uncloak t) /\ meaning neg v (uncloak t) = meaning neg v t /\ isCloaked (uncloak t) = false.
Proof.
  induction t as [c|w p f d ks IH] using tree_ind'; intros H; [discriminate|].
  destruct (cloaked_child _ H) as (w' & f' & d' & x & E & S & N). injection E as -> -> -> -> ->.
  inversion_clear IH as [|? ? Hx _]. cbn [uncloak].
  assert (M : meaning neg v (Stk w' false f' d' [x]) = meaning neg v x).
  { cbn [meaning map]. destruct w'; cbn [combine forallb existsb]; [now rewrite andb_true_r|now rewrite orb_false_r|now destruct N]. }
  rewrite M. destruct (isCloaked x) eqn:C; [now apply Hx|]. now repeat split.
Qed.
Definition open1 (k : tree) : tree := if isCloaked k then uncloak k else k.
Lemma open1_meaning neg v k : meaning neg v (open1 k) = meaning neg v k.
Proof. unfold open1. destruct (isCloaked k) eqn:C; [|reflexivity]. now apply uncloak_spec. Qed.
Lemma uncloakBR_meaning neg v t : meaning neg v (uncloakBindRules t) = meaning neg v t.
Proof.
  destruct t as [c|w p f d ks]; [reflexivity|]. cbn [uncloakBindRules meaning]. rewrite map_map. f_equal. apply map_ext. intros k. apply open1_meaning.
Qed.
(* all stacks have members and all rules a keyword *)
Inductive full : tree -> Prop :=
| FLeaf c : c_kw c <> "" -> full (Leaf c)
| FStk w p f d ks : ks <> [] -> Forall full ks -> full (Stk w p f d ks).
Lemma full_visible : forall t, full t -> visible t.
Proof.
  induction t as [c|w p f d ks IH] using tree_ind'; intros H; inversion_clear H as [? K|? ? ? ? ? N F].
  - unfold visible. cbn [tstr]. now apply cond_string_nonempty.
  - apply stk_shown; [|now left]. apply Forall_forall. intros k Hk. apply (proj1 (Forall_forall _ _) IH k Hk). now apply (proj1 (Forall_forall _ _) F k Hk).
Qed.
Lemma uncloak_full : forall t, full t -> full (uncloak t).
Proof.
  induction t as [c|w p f d ks IH] using tree_ind'; intros H; [exact H|]. inversion_clear H as [|? ? ? ? ? N F].
  destruct ks as [|k ks]; [easy|]. inversion_clear F as [|? ? Fk _]. inversion_clear IH as [|? ? Hk _]. cbn [uncloak]. destruct (isCloaked k); [now apply Hk|exact Fk].
Qed.
Lemma uncloakBR_full t : full t -> full (uncloakBindRules t).
Proof.
  intros H. inversion_clear H as [c K|w p f d ks N F]; cbn [uncloakBindRules]; constructor; trivial.
  - now destruct ks.
  - apply Forall_forall. intros k Hk. apply in_map_iff in Hk as (x & <- & Hx). assert (Fx := proj1 (Forall_forall _ _) F x Hx).
    destruct (isCloaked x); [now apply uncloak_full|exact Fx].
Qed.
Lemma finish_eq w l : Forall full l -> finish w (KOk l) = match l with [] => CFail | _ => COk (uncloakBindRules (Stk w false false pad l)) end.
Proof.
  intros F. unfold finish. cbn zeta. assert (V : Forall visible l) by (eapply Forall_impl; [exact full_visible|exact F]).
  destruct l as [|a l]; [reflexivity|].
  assert (X : visible (Stk w false false pad (a :: l))) by (apply (stk_shown w false false pad (a :: l) V); left; discriminate).
  unfold visible in X. destruct (Nat.ltb_spec 0 (String.length (tstr notsep (Stk w false false pad (a :: l))))) as [L|L]; [reflexivity|].
  exfalso. apply X, length0. lia.
Qed.

(* what the loop collects *)
Variable neg : list bool -> bool.
Variable v : cond -> bool.
Variable v0 : rule -> bool.
Hypothesis agree : forall r c, br_assert en r = ROk (Some c) -> v0 r = v c.
Definition good (m : ptree) : Prop := forall t, convert m = COk t -> full t /\ is_stk t /\ meaning neg v t = pmeaning neg v0 (cut en m).
Lemma cloop_spec ks : Forall good ks -> forall clean l, cloop clean ks = KOk l ->
  exists l', l = (clean ++ l')%list /\ Forall full l' /\ map (meaning neg v) l' = map (pmeaning neg v0) (cut_list ks).
Proof.
  induction 1 as [|m ks G _ IH]; intros clean l H.
  - injection H as <-. exists []. rewrite app_nil_r. now repeat split.
  - destruct m as [r|k p kk|]; cbn [cloop cut_list] in *.
    + rewrite br_paren_id in H. destruct (br_assert en r) as [| |r'] eqn:A; [discriminate| |].
      * injection H as <-. exists []. rewrite app_nil_r. now repeat split.
      * destruct (push_converted _ _ _ clean A) as (c' & -> & E & _). rewrite E in H. destruct (IH _ _ H) as (l' & -> & F & M).
        exists (Leaf c' :: l'). rewrite <- app_assoc. split; [reflexivity|]. split.
        -- constructor; [|exact F]. destruct (br_assert_keeps _ _ _ A) as (c & c2 & k & _ & E2 & K & EK & _). injection E2 as <-.
           constructor. rewrite EK. now apply (kw_nonempty _ k).
        -- cbn [map meaning pmeaning]. now rewrite M, (agree _ _ A).
    + destruct (convert (PStk k p kk)) as [| | |sub] eqn:C; [discriminate|discriminate| |].
      { destruct (convert_zero _ C) as [-> ->]. exact (IH _ _ H). }
      destruct (known_kind k) eqn:KK; [|rewrite (convert_unknown _ _ _ KK) in C; destruct (shows zero); discriminate]. cbn [negb]. rewrite andb_false_r.
      destruct (G sub C) as (F & S & M). destruct sub as [c|w q f d ks']; [destruct S|]. cbn [brs_paren uncloakBindRules brs_push1] in H.
      destruct (IH _ _ H) as (l' & -> & F' & M').
      eexists (_ :: l'). rewrite <- app_assoc. split; [reflexivity|]. split.
      * constructor; [|exact F']. apply (uncloakBR_full (Stk w p f d ks')). inversion_clear F. now constructor.
      * cbn [map]. rewrite M'. f_equal. rewrite <- M. exact (uncloakBR_meaning neg v (Stk w p f d ks')).
    + exact (IH _ _ H).
Qed.
Lemma all_good m : good m.
Proof.
  assert (Z : forall t, unknown_word zero <> COk t) by (intros t; rewrite unknown_word_eq; destruct (shows zero); discriminate).
  induction m as [r|k p ks IH|] using ptree_ind'; intros t H; [now destruct (Z t)| |now destruct (Z t)].
  rewrite convert_eq in H. rewrite cut_eq. destruct (wordToStack k) as [w|] eqn:W; [|now destruct (Z t)].
  destruct (cloop [] ks) as [| |l] eqn:L; [discriminate|discriminate|].
  destruct (cloop_spec ks IH [] l L) as (l' & -> & F & M). cbn [app] in H. rewrite finish_eq in H by exact F.
  assert (E : l' <> [] /\ t = uncloakBindRules (Stk w false false pad l')) by (destruct l'; [discriminate|injection H as <-; now split]).
  destruct E as [N ->]. split; [apply uncloakBR_full; now constructor|]. split; [exact I|].
  rewrite uncloakBR_meaning. cbn [meaning pmeaning]. rewrite <- word_kind, W, M. reflexivity.
Qed.
End Conv.

(* ---- when the conversion succeeds ---- *)
Section Succeed.
Variable en : env.
Variable pad : bool.
Variable notsep : string.
Variable zero : string.
Notation convert := (convert en pad notsep zero).
Notation cut := (cut (shows zero)).
Lemma convert_full m t : convert m = COk t -> full t /\ is_stk t.
Proof.
  intros H. destruct (all_good en pad notsep zero (fun _ => true) (fun _ => true) (fun _ => true) ltac:(reflexivity) m t H) as (A & B & _). now split.
Qed.
Lemma cloop_app ks : forall clean l, cloop en pad notsep zero clean ks = KOk l -> exists l', l = (clean ++ l')%list /\ Forall full l' /\ List.length l' = List.length (cut_list en zero ks).
Proof.
  intros clean l H.
  destruct (cloop_spec en pad notsep zero (fun _ => true) (fun _ => true) (fun _ => true) ltac:(reflexivity) ks) with (clean := clean) (l := l) as (l' & A & B & C); trivial.
  - apply Forall_forall. intros m _. now apply all_good.
  - exists l'. split; [exact A|]. split; [exact B|]. rewrite <- (map_length (meaning (fun _ => true) (fun _ => true)) l'), C. apply map_length.
Qed.
(* success exactly when nothing panics and what is left after cutting is sound *)
Definition outcome (m : ptree) : Prop :=
  panics en m = false ->
  ((exists t, convert m = COk t) <-> match m with PStk _ _ _ => sound (cut en m) = true | _ => False end) /\
  convert m <> CPanic.
Lemma cloop_outcome ks : Forall outcome ks -> existsb (panics en) ks = false -> forall clean,
  cloop en pad notsep zero clean ks <> KPanic /\
  ((exists l, cloop en pad notsep zero clean ks = KOk l) <-> forallb sound (cut_list en zero ks) = true).
Proof.
  induction 1 as [|m ks O _ IH]; intros P clean.
  - split; [discriminate|]. split; [reflexivity|]. intros _. now exists clean.
  - cbn [existsb] in P. apply orb_false_iff in P as [Pm P]. destruct m as [r|k p kk|]; cbn [cloop cut_list].
    + cbn [panics] in Pm. rewrite br_paren_id. destruct (br_assert en r) as [| |r']; [discriminate| |].
      * split; [discriminate|]. split; [reflexivity|]. intros _. now exists clean.
      * cbn [forallb sound andb]. now apply IH.
    + destruct (O Pm) as [S NP]. destruct (convert (PStk k p kk)) as [| | |sub] eqn:C; [now destruct NP| | |].
      * assert (X : (shows zero && negb (known_kind k))%bool = false).
        { destruct (known_kind k) eqn:KK; [apply andb_false_r|]. rewrite (convert_unknown en pad notsep _ _ _ _ KK) in C. now destruct (shows zero). }
        rewrite X. cbn [forallb]. clear X.
        split; [discriminate|]. split; [intros [l X]; discriminate X|]. intros X. apply andb_true_iff in X as [X _].
        destruct (proj2 S X) as [t Y]. discriminate Y.
      * destruct (convert_zero en pad notsep _ _ C) as [-> ->]. now apply IH.
      * destruct (known_kind k) eqn:KK; [|rewrite (convert_unknown en pad notsep _ _ _ _ KK) in C; destruct (shows zero); discriminate].
        cbn [negb]. rewrite andb_false_r. cbn [forallb]. rewrite (proj1 S) by (now exists sub). now apply IH.
    + now apply IH.
Qed.
Lemma all_outcome m : outcome m.
Proof.
  assert (Z : unknown_word zero <> CPanic /\ forall t, unknown_word zero <> COk t) by (rewrite unknown_word_eq; destruct (shows zero); now split).
  destruct Z as [Z1 Z2].
  induction m as [r|k p ks IH|] using ptree_ind'; intros P.
  - split; [|exact Z1]. split; [intros [t X]; now apply Z2 in X|easy].
  - rewrite convert_eq, cut_eq. cbn [panics] in P. destruct (cloop_outcome ks IH P []) as [NP S]. rewrite word_kind. cbn [sound]. unfold known_kind.
    destruct (kind_word k) as [w|]; [|split; [|exact Z1]; split; [intros [t X]; now apply Z2 in X|discriminate]]. cbn [andb].
    destruct (cloop en pad notsep zero [] ks) as [| |l] eqn:L.
    + now destruct NP.
    + cbn [finish]. split; [|discriminate]. split; [intros [t X]; discriminate X|]. intros X. apply andb_true_iff in X as [_ X].
      destruct (proj2 S X) as [l Y]. discriminate Y.
    + assert (SO := proj1 S (ex_intro _ l eq_refl)). destruct (cloop_app ks [] l L) as (l' & E & F & LEN). cbn [app] in E. subst l'.
      rewrite finish_eq by exact F. rewrite SO, andb_true_r. rewrite <- LEN. destruct l as [|a l].
      * split; [|discriminate]. split; [intros [t X]; discriminate X|discriminate].
      * split; [|discriminate]. split; [reflexivity|]. intros _. eexists. reflexivity.
  - split; [|exact Z1]. split; [intros [t X]; now apply Z2 in X|easy].
Qed.
End Succeed.
Lemma cut_id zero en m : all_convert en m = true -> cut (shows zero) en m = m.
Proof.
  induction m as [r|k p ks IH|] using ptree_ind'; intros H; [reflexivity| |discriminate]. rewrite cut_eq. f_equal.
  cbn [all_convert] in H. apply andb_true_iff in H as [_ H]. induction IH as [|m ks G _ IH]; [reflexivity|]. cbn [forallb] in H. apply andb_true_iff in H as [Hm H].
  cbn [cut_list]. destruct m as [r|k' p' kk|]; [| |discriminate Hm].
  - cbn [all_convert] in Hm. destruct (br_assert en r); try discriminate. now rewrite (IH H).
  - assert (K := Hm). cbn [all_convert] in K. apply andb_true_iff in K as [-> _]. cbn [negb]. now rewrite andb_false_r, (G Hm), (IH H).
Qed.
Lemma convert_no_panic en m : all_convert en m = true -> panics en m = false.
Proof.
  induction m as [r|k p ks IH|] using ptree_ind'; cbn [all_convert panics]; intros H; [now destruct (br_assert en r)| |reflexivity].
  apply andb_true_iff in H as [_ H].
  induction IH as [|m ks G _ IH]; [reflexivity|]. cbn [forallb existsb] in *. apply andb_true_iff in H as [Hm H]. now rewrite (G Hm), (IH H).
Qed.
