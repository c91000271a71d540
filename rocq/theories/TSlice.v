(* C151, C152: Set and String of one IPAddr, called by several goroutines. *)
From Coq Require Import String List PeanoNat Bool Lia.
From Verif Require Import GoStr MMisc MHeap MNet MSlice SSlice SWord PWhole.
Import ListNotations.
Open Scope list_scope.

Section Slice.
Variable spare : nat -> nat.
Notation run := (ip_sched spare).
Notation step := (ip_step spare).

Lemma run_snoc st q i : run st (q ++ [i]) = step (run st q) i.
Proof. unfold ip_sched. now rewrite fold_left_app. Qed.
Lemma run_app st a b : run st (a ++ b) = run (run st a) b.
Proof. unfold ip_sched. now rewrite fold_left_app. Qed.
Lemma step_len st i : List.length (gos (step st i)) = List.length (gos st).
Proof.
  unfold ip_step. destruct (nth_error (gos st) i) as [g|]; [|reflexivity]. destruct (ip_gstep spare st g) as [[a h] g']. apply wr_len.
Qed.
Lemma run_len st q : List.length (gos (run st q)) = List.length (gos st).
Proof. induction q as [|i q IH] using rev_ind; [reflexivity|]. rewrite run_snoc, step_len. exact IH. Qed.
Lemma step_out st i : nth_error (gos st) i = None -> step st i = st.
Proof. intros E. unfold ip_step. now rewrite E. Qed.
Lemma step_gos st i g : nth_error (gos st) i = Some g -> forall j,
  nth_error (gos (step st i)) j = if Nat.eqb j i then Some (snd (ip_gstep spare st g)) else nth_error (gos st) j.
Proof.
  intros E j. unfold ip_step. rewrite E. destruct (ip_gstep spare st g) as [[a h] g']. cbn [gos snd]. destruct (Nat.eqb_spec j i) as [->|N].
  - apply wr_same. apply nth_error_Some. congruence.
  - now apply wr_other.
Qed.
Lemma step_mem st i g : nth_error (gos st) i = Some g -> arrays (step st i) = fst (fst (ip_gstep spare st g)) /\ hdr (step st i) = snd (fst (ip_gstep spare st g)).
Proof. intros E. unfold ip_step. rewrite E. now destruct (ip_gstep spare st g) as [[a h] g']. Qed.

(* ---- arrays ---- *)
Definition arr (ar : list (list string)) (A : nat) : list string := nth A ar [].
Definition view (ar : list (list string)) (h : nat * nat) : list string := firstn (snd h) (arr ar (fst h)).
Definition within (ar : list (list string)) (h : nat * nat) : Prop := (fst h < List.length ar)%nat /\ (snd h <= List.length (arr ar (fst h)))%nat.
Lemma arr_wr ar A B x : (A < List.length ar)%nat -> arr (wr ar A x) B = if Nat.eqb B A then x else arr ar B.
Proof.
  intros L. unfold arr. destruct (Nat.eqb_spec B A) as [->|N].
  - apply nth_error_nth. now apply wr_same.
  - destruct (nth_error ar B) as [y|] eqn:E.
    + rewrite (nth_error_nth _ _ _ E). apply nth_error_nth. now rewrite wr_other.
    + rewrite !nth_overflow; [reflexivity|now apply nth_error_None|]. rewrite wr_len. now apply nth_error_None.
Qed.
Lemma arr_new ar B x : arr (ar ++ [x]) B = if Nat.eqb B (List.length ar) then x else arr ar B.
Proof.
  unfold arr. destruct (Nat.eqb_spec B (List.length ar)) as [->|N]; [rewrite app_nth2 by lia; now rewrite Nat.sub_diag|].
  destruct (Nat.lt_ge_cases B (List.length ar)) as [L|L]; [now apply app_nth1|]. rewrite !nth_overflow; [reflexivity|lia|rewrite app_length; cbn; lia].
Qed.
Lemma firstn_wr {T} (l : list T) n a : firstn n (wr l n a) = firstn n l.
Proof. revert n. induction l as [|x l IH]; intros [|n]; cbn; try reflexivity. now rewrite IH. Qed.
Lemma firstn_S_wr {T} (l : list T) n a : (n < List.length l)%nat -> firstn (S n) (wr l n a) = firstn n l ++ [a].
Proof. revert n. induction l as [|x l IH]; intros [|n] L; cbn in *; try lia; [reflexivity|]. f_equal. apply IH. lia. Qed.
Lemma firstn_wr_in {T} (l : list T) n m a x : In x (firstn m (wr l n a)) -> In x (firstn m l) \/ x = a.
Proof.
  revert n m. induction l as [|y l IH]; intros [|n] [|m]; cbn; try tauto.
  - intros [<-|H]; tauto.
  - intros [<-|H]; [tauto|]. destruct (IH n m H); tauto.
Qed.
Lemma view_len ar h : within ar h -> List.length (view ar h) = snd h.
Proof. intros [_ L]. unfold view. rewrite firstn_length. lia. Qed.

(* what append puts in place *)
Definition placed (ar : list (list string)) (A n : nat) (a : string) : list (list string) * nat :=
  if (n <? List.length (arr ar A))%nat then (wr ar A (wr (arr ar A) n a), A)
  else (ar ++ [firstn n (arr ar A) ++ [a] ++ repeat ""%string (spare n)], List.length ar).
Lemma placed_within ar A n a : within ar (A, n) -> within (fst (placed ar A n a)) (snd (placed ar A n a), S n).
Proof.
  intros [L1 L2]. cbn [fst snd] in *. unfold placed. destruct (Nat.ltb_spec n (List.length (arr ar A))) as [L|L]; split; cbn [fst snd].
  - now rewrite wr_len.
  - rewrite arr_wr, Nat.eqb_refl, wr_len by assumption. lia.
  - rewrite app_length. cbn. lia.
  - rewrite arr_new, Nat.eqb_refl, !app_length, firstn_length. cbn. lia.
Qed.
Lemma placed_view ar A n a : within ar (A, n) -> view (fst (placed ar A n a)) (snd (placed ar A n a), S n) = view ar (A, n) ++ [a].
Proof.
  intros [L1 L2]. cbn [fst snd] in *. unfold placed, view. destruct (Nat.ltb_spec n (List.length (arr ar A))) as [L|L]; cbn [fst snd].
  - rewrite arr_wr, Nat.eqb_refl by assumption. now apply firstn_S_wr.
  - rewrite arr_new, Nat.eqb_refl. assert (E : List.length (firstn n (arr ar A)) = n) by (rewrite firstn_length; lia).
    change (S n) with (1 + n)%nat. rewrite Nat.add_comm, <- E at 1. rewrite firstn_app_2. f_equal. 
Qed.
Lemma placed_other ar A n a h : within ar (A, n) -> within ar h -> within (fst (placed ar A n a)) h.
Proof.
  intros [L1 L2] [M1 M2]. cbn [fst snd] in *. unfold placed. destruct (Nat.ltb_spec n (List.length (arr ar A))) as [L|L]; split; cbn [fst snd].
  - now rewrite wr_len.
  - rewrite arr_wr by assumption. destruct (Nat.eqb_spec (fst h) A) as [E|N]; [subst A; now rewrite wr_len|exact M2].
  - rewrite app_length. cbn. lia.
  - rewrite arr_new. destruct (Nat.eqb_spec (fst h) (List.length ar)); [lia|exact M2].
Qed.
Lemma placed_old ar A n a : within ar (A, n) -> view (fst (placed ar A n a)) (A, n) = view ar (A, n).
Proof.
  intros [L1 L2]. cbn [fst snd] in *. unfold placed, view. destruct (Nat.ltb_spec n (List.length (arr ar A))) as [L|L]; cbn [fst snd].
  - rewrite arr_wr, Nat.eqb_refl by assumption. apply firstn_wr.
  - rewrite arr_new. destruct (Nat.eqb_spec A (List.length ar)); [lia|reflexivity].
Qed.
Lemma placed_in ar A n a h x : within ar (A, n) -> within ar h -> In x (view (fst (placed ar A n a)) h) -> In x (view ar h) \/ x = a.
Proof.
  intros [L1 L2] [M1 M2]. cbn [fst snd] in *. unfold placed, view. destruct (Nat.ltb_spec n (List.length (arr ar A))) as [L|L]; cbn [fst snd].
  - rewrite arr_wr by assumption. destruct (Nat.eqb_spec (fst h) A) as [E|N]; [subst A; apply firstn_wr_in|tauto].
  - rewrite arr_new. destruct (Nat.eqb_spec (fst h) (List.length ar)); [lia|tauto].
Qed.
Lemma nth_view ar h i d : within ar h -> (i < snd h)%nat -> nth i (arr ar (fst h)) d = nth i (view ar h) d.
Proof.
  intros [_ M] L. unfold view. revert i L M. generalize (snd h). intros n. generalize (arr ar (fst h)). intros l. revert n.
  induction l as [|x l IH]; intros [|n] [|i] L M; cbn in *; try reflexivity; try lia. apply IH; lia.
Qed.

(* ---- one at a time ---- *)
Definition pre (a b : list string) : Prop := exists t, b = a ++ t.
Lemma pre_full a b : pre a b -> (List.length b <= List.length a)%nat -> a = b.
Proof. intros (t & ->) L. rewrite app_length in L. destruct t; [now rewrite app_nil_r|cbn in L; lia]. Qed.
Lemma pre_len a b : pre a b -> (List.length a <= List.length b)%nat.
Proof. intros (t & ->). rewrite app_length. lia. Qed.
Lemma pre_next a b : pre a b -> (List.length a < List.length b)%nat -> pre (a ++ [nth (List.length a) b ""%string]) b.
Proof.
  intros (t & ->) L. rewrite app_length in L. destruct t as [|x t]; [cbn in L; lia|]. exists t. rewrite app_nth2 by lia. rewrite Nat.sub_diag. cbn. now rewrite <- app_assoc.
Qed.
Lemma pre_more a b t : pre a b -> pre a (b ++ t).
Proof. intros (u & ->). exists (u ++ t). now rewrite app_assoc. Qed.

Definition place_ok (ar : list (list string)) (h : nat * nat) (p : ipplace) : Prop :=
  match p with
  | Rest => True
  | Scan a A n seen => (A, n) = h /\ pre seen (view ar h) /\ (0 < String.length a)%nat
  | Fits a => ip_set1 (view ar h) a = view ar h ++ [a]
  | Have a A n => (A, n) = h /\ ip_set1 (view ar h) a = view ar h ++ [a]
  | Store a A n => within ar (A, n) /\ view ar (A, n) = view ar h ++ [a] /\ ip_set1 (view ar h) a = view ar h ++ [a]
  | Look seen => pre seen (view ar h)
  | Fetch seen => pre seen (view ar h) /\ (List.length seen < List.length (view ar h))%nat
  end.
Definition go_ok (ar : list (list string)) (h : nat * nat) (g : ipgo) : Prop := place_ok ar h (iat g) /\ ~ In None (texts g).
Definition adds (ops : list ipop) : list string := flat_map (fun o => match o with IAdd a => [a] | IText => [] end) ops.
Definition rem (g : ipgo) : list string :=
  match iat g with Scan a _ _ _ | Fits a | Have a _ _ | Store a _ _ => [a] | _ => [] end ++ adds (todo g).
Lemma adds_ops cs : adds (ip_ops cs) = gives cs.
Proof.
  unfold adds, ip_ops, gives. induction cs as [|[addr|] cs IH]; [reflexivity| |]; cbn [flat_map]; rewrite flat_map_app, IH; [f_equal|reflexivity].
  induction addr as [|a addr IHa]; [reflexivity|]. cbn. now rewrite IHa.
Qed.
Lemma other_ok ar h ar' h' p : place_ok ar h p -> (ar' = ar /\ h' = h) \/ (~ writing p /\ exists t, view ar' h' = view ar h ++ t) -> place_ok ar' h' p.
Proof.
  intros O [[-> ->]|[W (t & V)]]; [exact O|]. destruct p; cbn [writing] in W; try (exfalso; apply W; exact I); cbn [place_ok] in *; rewrite ?V.
  - exact I.
  - now apply pre_more.
  - destruct O as [O1 O2]. split; [now apply pre_more|rewrite app_length; lia].
Qed.

(* one step of a goroutine, nobody else at work *)
Lemma gstep_ok st g : within (arrays st) (hdr st) -> go_ok (arrays st) (hdr st) g ->
  let '(ar, h, g') := ip_gstep spare st g in
  within ar h /\ go_ok ar h g' /\
  ((ar = arrays st /\ h = hdr st) \/ (writing (iat g) /\ exists t, view ar h = view (arrays st) (hdr st) ++ t)) /\
  (exists d, rem g = d ++ rem g' /\ view ar h = ip_set (view (arrays st) (hdr st)) d) /\
  (texts g' = texts g \/ texts g' = texts g ++ [Some (view (arrays st) (hdr st))]).
Proof.
  intros Wi [P T]. unfold ip_gstep. destruct (hdr st) as [H n0] eqn:Eh. change (array st) with (arr (arrays st)).
  assert (VL := view_len _ _ Wi). cbn [snd] in VL.
  assert (Same : forall p t, place_ok (arrays st) (H, n0) p -> (exists d, rem g = d ++ rem (MkIg t p (texts g)) /\ view (arrays st) (H, n0) = ip_set (view (arrays st) (H, n0)) d) ->
    within (arrays st) (H, n0) /\ go_ok (arrays st) (H, n0) (MkIg t p (texts g)) /\
    ((arrays st = arrays st /\ (H, n0) = (H, n0)) \/ (writing (iat g) /\ exists u, view (arrays st) (H, n0) = view (arrays st) (H, n0) ++ u)) /\
    (exists d, rem g = d ++ rem (MkIg t p (texts g)) /\ view (arrays st) (H, n0) = ip_set (view (arrays st) (H, n0)) d) /\
    (texts (MkIg t p (texts g)) = texts g \/ texts (MkIg t p (texts g)) = texts g ++ [Some (view (arrays st) (H, n0))])).
  { intros p t Pk D. split; [exact Wi|]. split; [now split|]. split; [left; now split|]. split; [exact D|now left]. }
  unfold rem at 1 2 in Same. 
  destruct (iat g) as [|a A n seen|a|a A n|a A n|seen|seen] eqn:Ep; cbn [place_ok] in P.
  - destruct (todo g) as [|[a|] t] eqn:Et.
    + split; [exact Wi|]. split; [split; [now rewrite Ep|exact T]|]. split; [left; now split|]. split; [exists []; now split|now left].
    + apply Same; destruct (Nat.ltb_spec 0 (String.length a)) as [L|L].
      * split; [reflexivity|]. split; [eexists; reflexivity|exact L].
      * exact I.
      * exists []. split; reflexivity.
      * exists [a]. split; [reflexivity|]. cbn. unfold ip_set1. destruct (Nat.ltb_spec 0 (String.length a)); [lia|reflexivity].
    + apply Same; [eexists; reflexivity|exists []; now split].
  - destruct P as (E & Pr & La). injection E as -> ->. destruct (Nat.ltb_spec (List.length seen) n0) as [L|L].
    + apply Same; [|exists []; now split]. split; [reflexivity|]. split; [|exact La]. rewrite (nth_view _ (H, n0)) by assumption. apply pre_next; [exact Pr|lia].
    + assert (seen = view (arrays st) (H, n0)) by (apply pre_full; [exact Pr|lia]). subst seen.
      assert (S1 : ip_set1 (view (arrays st) (H, n0)) a = if ip_unique (view (arrays st) (H, n0)) a then if isValidIP a then view (arrays st) (H, n0) ++ [a] else view (arrays st) (H, n0) else view (arrays st) (H, n0)).
      { unfold ip_set1. destruct (Nat.ltb_spec 0 (String.length a)); [reflexivity|lia]. }
      destruct (ip_unique (view (arrays st) (H, n0)) a); [destruct (isValidIP a)|]; apply Same; cbn [place_ok]; try exact I; try exact S1.
      * exists []. now split.
      * exists [a]. split; [reflexivity|]. unfold ip_set. cbn [fold_left]. now rewrite S1.
      * exists [a]. split; [reflexivity|]. unfold ip_set. cbn [fold_left]. now rewrite S1.
  - apply Same; [now split|exists []; now split].
  - destruct P as (E & Pn). injection E as -> ->.
    assert (G : within (fst (placed (arrays st) H n0 a)) (H, n0) /\ go_ok (fst (placed (arrays st) H n0 a)) (H, n0) (MkIg (todo g) (Store a (snd (placed (arrays st) H n0 a)) (S n0)) (texts g)) /\
      ((fst (placed (arrays st) H n0 a) = arrays st /\ (H, n0) = (H, n0)) \/ (True /\ exists t, view (fst (placed (arrays st) H n0 a)) (H, n0) = view (arrays st) (H, n0) ++ t)) /\
      (exists d, rem g = d ++ rem (MkIg (todo g) (Store a (snd (placed (arrays st) H n0 a)) (S n0)) (texts g)) /\ view (fst (placed (arrays st) H n0 a)) (H, n0) = ip_set (view (arrays st) (H, n0)) d) /\
      (texts g = texts g \/ texts g = texts g ++ [Some (view (arrays st) (H, n0))])).
    { rewrite placed_old by exact Wi. split; [now apply placed_other|]. split; [|split; [right; split; [exact I|exists []; now rewrite app_nil_r]|split; [exists []; split; [unfold rem; rewrite Ep; reflexivity|reflexivity]|now left]]].
      split; [|exact T]. cbn [iat place_ok]. rewrite placed_old, placed_view by exact Wi. split; [now apply placed_within|now split]. }
    unfold placed in G. destruct (n0 <? List.length (arr (arrays st) H))%nat; exact G.
  - destruct P as (Pw & Pv & Pn). split; [exact Pw|]. split; [split; [exact I|exact T]|]. split; [right; split; [exact I|exists [a]; exact Pv]|].
    split; [|now left]. exists [a]. split; [unfold rem; rewrite Ep; reflexivity|]. unfold ip_set. cbn [fold_left]. now rewrite Pv, Pn.
  - destruct (Nat.ltb_spec (List.length seen) n0) as [L|L].
    + apply Same; [split; [exact P|lia]|exists []; now split].
    + assert (seen = view (arrays st) (H, n0)) by (apply pre_full; [exact P|lia]). subst seen.
      split; [exact Wi|]. split; [split; [exact I|]|]; [|split; [left; now split|split; [exists []; split; [unfold rem; rewrite Ep; reflexivity|reflexivity]|now right]]].
      cbn [texts]. intros X. apply in_app_iff in X as [X|[X|[]]]; [tauto|discriminate].
  - destruct P as [P1 P2]. destruct (Nat.ltb_spec (List.length seen) n0) as [L|L]; [|lia].
    apply Same; [|exists []; now split]. cbn [place_ok]. rewrite (nth_view _ (H, n0)) by assumption. apply pre_next; [exact P1|exact P2].
Qed.

Definition turn (st : ipstate) : Prop := forall i j gi gj, nth_error (gos st) i = Some gi -> writing (iat gi) -> nth_error (gos st) j = Some gj -> writing (iat gj) -> i = j.
Record inv (l : list string) (css : list (list ipcall)) (st : ipstate) (h : list (nat * string)) : Prop := MkInv
  { i_within : within (arrays st) (hdr st);
    i_go : forall k g, nth_error (gos st) k = Some g -> go_ok (arrays st) (hdr st) g;
    i_len : List.length (gos st) = List.length css;
    i_view : shown st = ip_set l (map snd h);
    i_keys : forall k e, In (k, e) h -> (k < List.length css)%nat;
    i_done : forall k g cs, nth_error (gos st) k = Some g -> nth_error css k = Some cs ->
               map snd (filter (fun p => Nat.eqb (fst p) k) h) ++ rem g = gives cs }.
Lemma filter_own k (d : list string) : map snd (filter (fun p => Nat.eqb (fst p) k) (map (pair k) d)) = d.
Proof. induction d as [|x d IH]; [reflexivity|]. cbn [map filter fst]. rewrite Nat.eqb_refl. cbn [map snd]. now rewrite IH. Qed.
Lemma filter_foreign i k (d : list string) : i <> k -> filter (fun p => Nat.eqb (fst p) k) (map (pair i) d) = [].
Proof. intros N. induction d as [|x d IH]; [reflexivity|]. cbn [map filter fst]. destruct (Nat.eqb_spec i k); [contradiction|exact IH]. Qed.
Lemma inv_step l css st h i : turn st -> inv l css st h ->
  (exists h', inv l css (step st i) h') /\ pre (shown st) (shown (step st i)) /\
  (forall g g', nth_error (gos st) i = Some g -> nth_error (gos (step st i)) i = Some g' -> texts g' = texts g \/ texts g' = texts g ++ [Some (shown st)]).
Proof.
  intros U I. destruct (nth_error (gos st) i) as [g|] eqn:G.
  2:{ rewrite (step_out _ _ G). split; [now exists h|]. split; [exists []; now rewrite app_nil_r|discriminate]. }
  pose proof (gstep_ok st g (i_within _ _ _ _ I) (i_go _ _ _ _ I _ _ G)) as K.
  pose proof (step_gos st i g G) as Gs. destruct (step_mem st i g G) as [Ma Mh].
  destruct (ip_gstep spare st g) as [[ar hd] g'] eqn:E. cbn [fst snd] in *. destruct K as (K1 & K2 & K3 & (d & K4 & K5) & K6).
  assert (Vs : forall s, shown s = view (arrays s) (hdr s)) by reflexivity.
  split; [|split].
  - exists (h ++ map (pair i) d). split.
    + now rewrite Ma, Mh.
    + intros k g1. rewrite Gs, Ma, Mh. destruct (Nat.eqb_spec k i) as [->|N]; [intros [= <-]; exact K2|]. intros G1.
      destruct (i_go _ _ _ _ I _ _ G1) as [P1 P2]. split; [|exact P2]. apply (other_ok (arrays st) (hdr st)); [exact P1|].
      destruct K3 as [K3|[K3 K3']]; [now left|]. right. split; [|exact K3']. intros W. apply N. exact (U k i g1 g G1 W G K3).
    + rewrite step_len. apply I.
    + rewrite Vs, Ma, Mh, K5, map_app, map_map. cbn [snd]. rewrite map_id. unfold ip_set. rewrite fold_left_app. f_equal. exact (i_view _ _ _ _ I).
    + intros k e J. apply in_app_iff in J as [J|J]; [eapply i_keys; eauto|]. apply in_map_iff in J as (x & [= <- <-] & J).
      rewrite <- (i_len _ _ _ _ I). apply nth_error_Some. congruence.
    + intros k g1 cs. rewrite Gs, filter_app, map_app. destruct (Nat.eqb_spec k i) as [->|N].
      * intros [= <-] C. rewrite filter_own, <- app_assoc, <- K4. exact (i_done _ _ _ _ I _ _ _ G C).
      * intros G1 C. rewrite filter_foreign by congruence. cbn [map]. rewrite app_nil_r. exact (i_done _ _ _ _ I _ _ _ G1 C).
  - rewrite !Vs, Ma, Mh. destruct K3 as [[-> ->]|[_ (t & ->)]]; [exists []; now rewrite app_nil_r|now exists t].
  - intros g0 g1 [= <-]. rewrite Gs, Nat.eqb_refl. intros [= <-]. exact K6.
Qed.
Lemma start_nth l room css k : nth_error (gos (ip_start l room css)) k = option_map (fun cs => MkIg (ip_ops cs) Rest []) (nth_error css k).
Proof. apply nth_error_map. Qed.
Lemma start_shown l room css : shown (ip_start l room css) = l.
Proof. unfold shown, array, ip_start. cbn. rewrite firstn_app, Nat.sub_diag, firstn_all. apply app_nil_r. Qed.
Lemma inv_start l room css : inv l css (ip_start l room css) [].
Proof.
  split.
  - split; cbn; [lia|]. rewrite app_length. lia.
  - intros k g G. rewrite start_nth in G. destruct (nth_error css k); [|discriminate]. injection G as <-. split; [exact I|intros []].
  - cbn. apply map_length.
  - cbn [map ip_set fold_left]. apply start_shown.
  - intros k e [].
  - intros k g cs G C. rewrite start_nth, C in G. injection G as <-. unfold rem. cbn. apply adds_ops.
Qed.
Lemma turns_snoc st q i : turns spare st (q ++ [i]) -> turns spare st q.
Proof. intros T a b E. apply (T a (b ++ [i])). now rewrite E, app_assoc. Qed.
Lemma inv_run l room css q : turns spare (ip_start l room css) q -> exists h, inv l css (run (ip_start l room css) q) h.
Proof.
  induction q as [|i q IH] using rev_ind; intros T; [exists []; apply inv_start|].
  destruct (IH (turns_snoc _ _ _ T)) as (h & I). rewrite run_snoc. eapply inv_step; [|exact I].
  intros a b ga gb. apply (T q [i] eq_refl).
Qed.
(* one goroutine that writes *)
Lemma alone l room css w q : only_writer w css -> forall k g, nth_error (gos (run (ip_start l room css) q)) k = Some g -> k <> w ->
  ~ writing (iat g) /\ (forall o, In o (todo g) -> o = IText).
Proof.
  intros O. induction q as [|i q IH] using rev_ind; intros k g G N.
  - change (run (ip_start l room css) []) with (ip_start l room css) in G. rewrite start_nth in G. destruct (nth_error css k) as [cs|] eqn:C; [|discriminate]. injection G as <-.
    split; [intros []|]. cbn [todo]. intros o J. apply in_flat_map in J as (c & J & K). rewrite (O k cs c C N J) in K. destruct K as [<-|[]]. reflexivity.
  - rewrite run_snoc in G. destruct (nth_error (gos (run (ip_start l room css) q)) i) as [g0|] eqn:G0; [|rewrite (step_out _ _ G0) in G; eauto].
    rewrite (step_gos _ _ _ G0) in G. destruct (Nat.eqb_spec k i) as [->|Ne]; [|eauto]. injection G as <-.
    destruct (IH i g0 G0 N) as [W T]. set (st := run (ip_start l room css) q) in *. clearbody st. unfold ip_gstep. destruct (hdr st) as [H n0].
    destruct (iat g0) eqn:Ep; cbn [writing] in W; try tauto.
    + destruct (todo g0) as [|[a|] t] eqn:Et; cbn [snd iat todo]; [split; [rewrite Ep; exact W|rewrite Et; exact T]| |].
      * specialize (T (IAdd a) (or_introl eq_refl)). discriminate.
      * split; [intros []|]. intros o J. apply T. now right.
    + destruct (_ <? _)%nat; cbn [snd iat todo]; (split; [intros []|exact T]).
    + destruct (_ <? _)%nat; cbn [snd iat todo]; (split; [intros []|]); [exact T|intros o []].
Qed.
Lemma alone_turns l room css w q : only_writer w css -> turns spare (ip_start l room css) q.
Proof.
  intros O a b _ i j gi gj Gi Wi Gj Wj.
  destruct (Nat.eq_dec i w) as [->|Ni]; [|destruct (alone l room css w a O i gi Gi Ni); contradiction].
  destruct (Nat.eq_dec j w) as [->|Nj]; [reflexivity|destruct (alone l room css w a O j gj Gj Nj); contradiction].
Qed.
Lemma turns_prefix st a b : turns spare st (a ++ b) -> turns spare st a.
Proof. induction b as [|i b IH] using rev_ind; [now rewrite app_nil_r|]. rewrite app_assoc. intros T. apply turns_snoc in T. now apply IH. Qed.
Lemma text_at l room css q k g g' : turns spare (ip_start l room css) q ->
  nth_error (gos (run (ip_start l room css) q)) k = Some g -> nth_error (gos (run (ip_start l room css) (q ++ [k]))) k = Some g' ->
  texts g' = texts g \/ texts g' = texts g ++ [Some (shown (run (ip_start l room css) q))].
Proof.
  intros T G G'. destruct (inv_run l room css q T) as (h & I). rewrite run_snoc in G'.
  eapply inv_step; [|exact I|exact G|exact G']. intros a b ga gb. apply (T q [] (eq_sym (app_nil_r q))).
Qed.
Lemma grows l room css a b : turns spare (ip_start l room css) (a ++ b) -> exists t, shown (run (ip_start l room css) (a ++ b)) = shown (run (ip_start l room css) a) ++ t.
Proof.
  induction b as [|i b IH] using rev_ind; [exists []; now rewrite !app_nil_r|]. rewrite app_assoc. intros T. pose proof (turns_snoc _ _ _ T) as T'.
  destruct (IH T') as (t & Et). destruct (inv_run l room css _ T') as (h & I).
  destruct (inv_step l css _ h i (fun x y gx gy => T' (a ++ b) [] (eq_sym (app_nil_r _)) x y gx gy) I) as (_ & (u & Eu) & _).
  exists (t ++ u). now rewrite run_snoc, Eu, Et, app_assoc.
Qed.
Lemma ordered l room css q : turns spare (ip_start l room css) q -> returned (run (ip_start l room css) q) ->
  exists h, merges (map gives css) h /\ shown (run (ip_start l room css) q) = ip_set l (map snd h).
Proof.
  intros T R. destruct (inv_run l room css q T) as (h & I). exists h. split; [|apply I]. split.
  - intros k e J. rewrite map_length. eapply i_keys; eauto.
  - intros k es E. rewrite nth_error_map in E. destruct (nth_error css k) as [cs|] eqn:C; [|discriminate]. injection E as <-.
    destruct (nth_error (gos (run (ip_start l room css) q)) k) as [g|] eqn:G.
    + rewrite <- (i_done _ _ _ _ I k g cs G C). destruct (R g (nth_error_In _ _ G)) as [R1 R2]. unfold rem. rewrite R1, R2. cbn. now rewrite app_nil_r.
    + apply nth_error_None in G. rewrite (i_len _ _ _ _ I) in G. assert (X : nth_error css k <> None) by congruence. apply nth_error_Some in X. lia.
Qed.

(* ---- every schedule: nothing but what was given ---- *)
Definition held_slice (p : ipplace) : option (nat * nat) := match p with Scan _ A n _ | Have _ A n | Store _ A n => Some (A, n) | _ => None end.
Definition may (l : list string) (css : list (list ipcall)) (x : string) : Prop :=
  In x l \/ given_address css x.
Section Safe.
Variables (l : list string) (css : list (list ipcall)).
Definition given (a : string) : Prop := exists cs, In cs css /\ In a (gives cs).
Definition fine (ar : list (list string)) (h : nat * nat) : Prop := within ar h /\ Forall (may l css) (view ar h).
Definition safe_place (p : ipplace) : Prop :=
  match p with
  | Scan a _ _ _ => (0 < String.length a)%nat /\ given a
  | Fits a | Have a _ _ => may l css a
  | Look seen | Fetch seen => Forall (may l css) seen
  | _ => True
  end.
Definition safe_go (ar : list (list string)) (g : ipgo) : Prop :=
  (forall h, held_slice (iat g) = Some h -> fine ar h) /\ safe_place (iat g) /\
  (forall a, In (IAdd a) (todo g) -> given a) /\ (forall ts, In (Some ts) (texts g) -> Forall (may l css) ts).
Definition safe (st : ipstate) : Prop := fine (arrays st) (hdr st) /\ forall g, In g (gos st) -> safe_go (arrays st) g.
Lemma placed_fine ar A n a h : fine ar (A, n) -> may l css a -> fine ar h -> fine (fst (placed ar A n a)) h.
Proof.
  intros [F1 F2] Ma [G1 G2]. split; [now apply placed_other|]. rewrite Forall_forall in *. intros x J.
  destruct (placed_in _ _ _ _ _ _ F1 G1 J) as [K| ->]; [now apply G2|exact Ma].
Qed.
Lemma placed_new ar A n a : fine ar (A, n) -> may l css a -> fine (fst (placed ar A n a)) (snd (placed ar A n a), S n).
Proof. intros [F1 F2] Ma. split; [now apply placed_within|]. rewrite placed_view by exact F1. apply Forall_app. split; [exact F2|now constructor]. Qed.
Lemma nth_fine ar h i : fine ar h -> (i < snd h)%nat -> may l css (nth i (arr ar (fst h)) ""%string).
Proof.
  intros [F1 F2] L. rewrite nth_view by assumption. rewrite Forall_forall in F2. apply F2, nth_In. now rewrite view_len.
Qed.
Lemma gstep_safe st g : fine (arrays st) (hdr st) -> safe_go (arrays st) g ->
  let '(ar, h, g') := ip_gstep spare st g in
  fine ar h /\ safe_go ar g' /\ (forall h0, fine (arrays st) h0 -> fine ar h0).
Proof.
  intros F (S1 & S2 & S3 & S4). unfold ip_gstep. destruct (hdr st) as [H n0] eqn:Eh. change (array st) with (arr (arrays st)).
  assert (Same : forall p t ts, (forall h, held_slice p = Some h -> fine (arrays st) h) -> safe_place p -> (forall a, In (IAdd a) t -> given a) ->
      (forall u, In (Some u) ts -> Forall (may l css) u) ->
      fine (arrays st) (H, n0) /\ safe_go (arrays st) (MkIg t p ts) /\ (forall h0, fine (arrays st) h0 -> fine (arrays st) h0)).
  { intros p t ts A1 A2 A3 A4. split; [exact F|]. split; [exact (conj A1 (conj A2 (conj A3 A4)))|auto]. }
  destruct (iat g) as [|a A n seen|a|a A n|a A n|seen|seen] eqn:Ep; cbn [safe_place held_slice] in S1, S2.
  - destruct (todo g) as [|[a|] t] eqn:Et.
    + split; [exact F|]. split; [|auto]. split; [intros h X; rewrite Ep in X; discriminate|]. rewrite Ep, Et. exact (conj I (conj S3 S4)).
    + assert (Ga : given a) by (apply S3; now left). assert (Gt : forall b, In (IAdd b) t -> given b) by (intros; apply S3; now right).
      destruct (Nat.ltb_spec 0 (String.length a)) as [L|L]; apply Same; try assumption; try discriminate; try exact I.
      * intros h [= <-]. exact F.
      * now split.
    + apply Same; try assumption; try discriminate; [constructor|intros; apply S3; now right].
  - destruct S2 as [La Ga]. destruct (_ <? _)%nat.
    + apply Same; try assumption. now split.
    + destruct (ip_unique seen a); [destruct (isValidIP a) eqn:V|]; apply Same; try assumption; try discriminate; try exact I.
      right. split; [intros ->; cbn in La; lia|]. split; [exact V|exact Ga].
  - apply Same; try assumption. intros h [= <-]. exact F.
  - assert (Fa : fine (arrays st) (A, n)) by (apply S1; reflexivity).
    assert (G : fine (fst (placed (arrays st) A n a)) (H, n0) /\ safe_go (fst (placed (arrays st) A n a)) (MkIg (todo g) (Store a (snd (placed (arrays st) A n a)) (S n)) (texts g)) /\
      (forall h0, fine (arrays st) h0 -> fine (fst (placed (arrays st) A n a)) h0)).
    { split; [now apply placed_fine|]. split; [|intros; now apply placed_fine]. split; [intros h [= <-]; now apply placed_new|]. exact (conj I (conj S3 S4)). }
    unfold placed in G. destruct (n <? List.length (arr (arrays st) A))%nat; exact G.
  - assert (Fa : fine (arrays st) (A, n)) by (apply S1; reflexivity). split; [exact Fa|]. split; [|auto]. split; [discriminate|]. exact (conj I (conj S3 S4)).
  - destruct (_ <? _)%nat; apply Same; try assumption; try discriminate; try exact I.
    intros u J. apply in_app_iff in J as [J|[[= <-]|[]]]; [now apply S4|exact S2].
  - destruct (Nat.ltb_spec (List.length seen) n0) as [L|L]; apply Same; try assumption; try discriminate; try exact I.
    + apply Forall_app. split; [exact S2|]. constructor; [|constructor]. exact (nth_fine _ (H, n0) _ F L).
    + intros a [].
    + intros u J. apply in_app_iff in J as [J|[J|[]]]; [now apply S4|discriminate].
Qed.
Lemma safe_step st i : safe st -> safe (step st i).
Proof.
  intros [F S]. destruct (nth_error (gos st) i) as [g|] eqn:G; [|now rewrite (step_out _ _ G)].
  pose proof (gstep_safe st g F (S g (nth_error_In _ _ G))) as K. pose proof (step_gos st i g G) as Gs. destruct (step_mem st i g G) as [Ma Mh].
  destruct (ip_gstep spare st g) as [[ar hd] g']. cbn [fst snd] in *. destruct K as (K1 & K2 & K3). split; [now rewrite Ma, Mh|].
  rewrite Ma. intros g1 J. apply In_nth_error in J as (j & J). rewrite Gs in J. destruct (j =? i)%nat; [injection J as <-; exact K2|].
  destruct (S g1 (nth_error_In _ _ J)) as (S1 & S2). split; [intros h X; apply K3, S1, X|exact S2].
Qed.
Lemma safe_start room : safe (ip_start l room css).
Proof.
  destruct (inv_start l room css) as [W _ _ _ _ _]. split.
  - split; [exact W|]. change (Forall (may l css) (shown (ip_start l room css))). rewrite start_shown. apply Forall_forall. intros x J. now left.
  - intros g J. cbn in J. apply in_map_iff in J as (cs & <- & J). split; [discriminate|]. split; [exact I|]. split; [|intros ts []].
    cbn [todo]. intros a K. exists cs. split; [exact J|]. rewrite <- adds_ops. apply in_flat_map. exists (IAdd a). split; [exact K|now left].
Qed.
Lemma safe_run room q : safe (run (ip_start l room css) q).
Proof. induction q as [|i q IH] using rev_ind; [apply safe_start|]. rewrite run_snoc. now apply safe_step. Qed.
End Safe.

(* ---- every schedule in which the list does not get shorter: no panic ---- *)
Lemma no_panic l room css q : not_shorter spare (ip_start l room css) q -> forall g, In g (gos (run (ip_start l room css) q)) ->
  ~ In None (texts g) /\ (forall seen, iat g = Fetch seen -> (List.length seen < List.length (shown (run (ip_start l room css) q)))%nat).
Proof.
  induction q as [|i q IH] using rev_ind; intros N g J.
  - cbn in J. apply in_map_iff in J as (cs & <- & J). split; [intros []|discriminate].
  - assert (N' : not_shorter spare (ip_start l room css) q). { intros a j b E. apply (N a j (b ++ [i])). rewrite E, <- app_assoc. reflexivity. }
    specialize (IH N'). specialize (N q i [] eq_refl). rewrite run_snoc in *. pose proof (safe_run l css room q) as [[W _] _].
    set (st := run (ip_start l room css) q) in *. clearbody st.
    destruct (nth_error (gos st) i) as [g0|] eqn:G; [|rewrite (step_out _ _ G) in *; now apply IH].
    apply In_nth_error in J as (j & J). rewrite (step_gos _ _ _ G) in J. destruct (Nat.eqb_spec j i) as [->|Ne].
    2:{ destruct (IH g (nth_error_In _ _ J)) as [I1 I2]. split; [exact I1|]. intros seen E. specialize (I2 seen E). lia. }
    injection J as <-. destruct (IH g0 (nth_error_In _ _ G)) as [I1 I2]. destruct (step_mem st i g0 G) as [Ma Mh].
    assert (VL : List.length (shown st) = snd (hdr st)) by exact (view_len _ _ W). revert N. unfold ip_gstep. destruct (hdr st) as [H n0] eqn:Eh. cbn [snd] in VL. intros N.
    destruct (iat g0) eqn:Ep.
    + destruct (todo g0) as [|[a|] t]; cbn [snd texts iat]; try (split; [exact I1|]); [congruence|destruct (_ <? _)%nat; discriminate|discriminate].
    + destruct (_ <? _)%nat; cbn [snd texts iat]; (split; [exact I1|]); [discriminate|destruct (ip_unique _ _); [destruct (isValidIP _)|]; discriminate].
    + cbn [snd texts iat]. split; [exact I1|discriminate].
    + destruct (_ <? _)%nat; cbn [snd texts iat]; (split; [exact I1|discriminate]).
    + cbn [snd texts iat]. split; [exact I1|discriminate].
    + destruct (Nat.ltb_spec (List.length seen) n0) as [L|L]; cbn [snd texts iat].
      * split; [exact I1|]. intros s [= <-]. lia.
      * split; [|discriminate]. intros X. apply in_app_iff in X as [X|[X|[]]]; [tauto|discriminate].
    + specialize (I2 seen eq_refl). destruct (Nat.ltb_spec (List.length seen) n0) as [L|L]; [|lia]. cbn [snd texts iat]. split; [exact I1|discriminate].
Qed.
End Slice.

Lemma sets_run l cs : ip_run (Some l) (sets cs) = Some (ip_set l (gives cs)).
Proof.
  unfold ip_run, sets, gives. revert l. induction cs as [|[addr|] cs IH]; intros l; [reflexivity| |exact (IH l)].
  cbn [flat_map app fold_left]. change (ipaddr_set (Some l) addr) with (Some (ip_set l addr)). rewrite IH. unfold ip_set. now rewrite fold_left_app.
Qed.
(* C151.  One goroutine calls Set, any number call String.  A call of String that returns
   now returns the text of the addresses the list holds now. *)
Theorem C151_text : forall spare l room css w q k g g', only_writer w css ->
  nth_error (gos (ip_sched spare (ip_start l room css) q)) k = Some g ->
  nth_error (gos (ip_sched spare (ip_start l room css) (q ++ [k]))) k = Some g' ->
  map text_of (texts g') = map text_of (texts g) \/
  map text_of (texts g') = map text_of (texts g) ++ [Some (ipaddr_string (Some (shown (ip_sched spare (ip_start l room css) q))))].
Proof.
  intros spare l room css w q k g g' O G G'. destruct (text_at spare l room css q k g g' (alone_turns _ _ _ _ w _ O) G G') as [-> | ->]; [now left|right].
  now rewrite map_app.
Qed.
(* So no call of String panics. *)
Theorem C151_no_panic : forall spare l room css w q g, only_writer w css ->
  In g (gos (ip_sched spare (ip_start l room css) q)) -> ~ In None (texts g).
Proof.
  intros spare l room css w q g O J. destruct (inv_run spare l room css q (alone_turns _ _ _ _ w _ O)) as (h & I).
  apply In_nth_error in J as (k & J). exact (proj2 (i_go _ _ _ _ I k g J)).
Qed.
(* What was there stays, in place: the list only gets longer. *)
Theorem C151_grows : forall spare l room css w a b, only_writer w css ->
  exists t, shown (ip_sched spare (ip_start l room css) (a ++ b)) = shown (ip_sched spare (ip_start l room css) a) ++ t.
Proof. intros spare l room css w a b O. apply grows. exact (alone_turns _ _ _ _ w _ O). Qed.
(* When all calls have returned the list is what the calls of Set make of it. *)
Theorem C151_final : forall spare l room css w cs q, only_writer w css -> nth_error css w = Some cs ->
  returned (ip_sched spare (ip_start l room css) q) ->
  Some (shown (ip_sched spare (ip_start l room css) q)) = ip_run (Some l) (sets cs).
Proof.
  intros spare l room css w cs q O C R. destruct (ordered spare l room css q (alone_turns _ _ _ _ w _ O) R) as (h & [M1 M2] & E).
  rewrite E, sets_run. do 2 f_equal. rewrite <- (M2 w (gives cs)) by (rewrite nth_error_map, C; reflexivity). f_equal.
  assert (K : forall k e, In (k, e) h -> k = w).
  { intros k e J. destruct (Nat.eq_dec k w) as [|N]; [assumption|]. exfalso. specialize (M1 k e J). rewrite map_length in M1.
    destruct (nth_error css k) as [cs'|] eqn:C'; [|apply nth_error_None in C'; lia].
    assert (Z : gives cs' = []). { clear -O C' N. assert (O' := fun c => O k cs' c C' N). clear O C'. induction cs' as [|c cs' IH]; [reflexivity|]. unfold gives. cbn. rewrite (O' c (or_introl eq_refl)). apply IH. intros c' J. apply O'. now right. }
    specialize (M2 k (gives cs')). rewrite nth_error_map, C' in M2. specialize (M2 eq_refl). rewrite Z in M2. apply map_eq_nil in M2.
    assert (X : In (k, e) (filter (fun p => Nat.eqb (fst p) k) h)) by (apply filter_In; split; [exact J|apply Nat.eqb_refl]). rewrite M2 in X. destruct X. }
  clear -K. induction h as [|[k e] h IH]; [reflexivity|]. rewrite (K k e (or_introl eq_refl)). cbn [filter fst]. rewrite Nat.eqb_refl. f_equal. apply IH. intros; eapply K; right; eassumption.
Qed.
(* C152.  Every number of goroutines calls Set and String, under every schedule: the list,
   and every text String returns, has no address but those of the start and those given. *)
Theorem C152_given : forall spare l room css q,
  (forall x, In x (shown (ip_sched spare (ip_start l room css) q)) -> In x l \/ given_address css x) /\
  (forall g seen x, In g (gos (ip_sched spare (ip_start l room css) q)) -> In (Some seen) (texts g) -> In x seen -> In x l \/ given_address css x).
Proof.
  intros spare l room css q. destruct (safe_run spare l css room q) as [[_ F] S]. rewrite Forall_forall in F. split; [exact F|].
  intros g seen x J K. destruct (S g J) as (_ & _ & _ & T). specialize (T seen K). rewrite Forall_forall in T. apply T.
Qed.
(* String panics only if the list gets shorter at some step. *)
Theorem C152_no_panic : forall spare l room css q g, not_shorter spare (ip_start l room css) q ->
  In g (gos (ip_sched spare (ip_start l room css) q)) -> ~ In None (texts g).
Proof. intros spare l room css q g N J. exact (proj1 (no_panic spare l room css q N g J)). Qed.
(* Goroutines that are in Set one at a time, while others call String: the list is what an
   order of all calls makes of it, every text is that of the moment, nothing goes away. *)
Theorem C152_by_turns : forall spare l room css q, turns spare (ip_start l room css) q ->
  (returned (ip_sched spare (ip_start l room css) q) ->
     exists h, merges (map gives css) h /\ Some (shown (ip_sched spare (ip_start l room css) q)) = ipaddr_set (Some l) (map snd h)) /\
  (forall a k b g g', q = a ++ k :: b ->
     nth_error (gos (ip_sched spare (ip_start l room css) a)) k = Some g ->
     nth_error (gos (ip_sched spare (ip_start l room css) (a ++ [k]))) k = Some g' ->
     texts g' = texts g \/ texts g' = texts g ++ [Some (shown (ip_sched spare (ip_start l room css) a))]) /\
  (forall a b, q = a ++ b -> exists t, shown (ip_sched spare (ip_start l room css) q) = shown (ip_sched spare (ip_start l room css) a) ++ t).
Proof.
  intros spare l room css q T. split; [|split].
  - intros R. destruct (ordered spare l room css q T R) as (h & M & E). exists h. split; [exact M|]. cbn. now rewrite E.
  - intros a k b g g' -> G G'. eapply text_at; [eapply turns_prefix; exact T|exact G|exact G'].
  - intros a b ->. now apply grows.
Qed.
(* The claims are false of goroutines that call Set at the same time: an address is there
   twice; an address is lost; String panics. *)
Theorem C152_refuted : let spare n := n in
  (let css := [[ISet ["10.0.0.1"%string]]; [ISet ["10.0.0.1"%string]]] in let st := ip_sched spare (ip_start [] 0 css) [0; 1; 0; 1; 0; 0; 0; 1; 1; 1] in
   returned st /\ shown st = ["10.0.0.1"%string; "10.0.0.1"%string]) /\
  (let css := [[ISet ["10.0.0.1"%string]]; [ISet ["10.0.0.2"%string]]] in let st := ip_sched spare (ip_start [] 0 css) [0; 1; 0; 1; 0; 1; 0; 1; 0; 1] in
   returned st /\ shown st = ["10.0.0.2"%string]) /\
  (let css := [[ISet ["10.0.0.1"%string]]; [ISet ["10.0.0.2"%string; "10.0.0.3"%string]]; [IString]] in
   let st := ip_sched spare (ip_start [] 0 css) [0; 0; 0; 1; 1; 1; 1; 1; 1; 1; 1; 1; 1; 1; 2; 2; 2; 2; 0; 0; 2] in
   returned st /\ map texts (gos st) = [[]; []; [None]] /\ shown st = ["10.0.0.1"%string]).
Proof.
  cbv zeta. split; [|split]; (split; [intros g J; vm_compute in J|]); try (vm_compute; auto; fail).
  - destruct J as [<-|[<-|[]]]; now split.
  - destruct J as [<-|[<-|[]]]; now split.
  - destruct J as [<-|[<-|[<-|[]]]]; now split.
Qed.
(* A text that is not that of the list at any moment: two goroutines write to one array. *)
Theorem C152_text_refuted : let spare n := n in
  let css := [[ISet ["10.0.0.1"%string]]; [ISet ["10.0.0.2"%string; "10.0.0.3"%string; "10.0.0.4"%string]]; [IString]] in
  let q := [0; 0; 0; 1; 1; 1; 1; 1; 1; 1; 1; 1; 1; 1; 2; 2; 2; 0; 1; 1; 1; 1; 1; 1; 1; 2; 2; 2; 2; 2] in
  map texts (gos (ip_sched spare (ip_start [] 3 css) q)) = [[]; []; [Some ["10.0.0.2"%string; "10.0.0.3"%string; "10.0.0.4"%string]]] /\
  forall k, shown (ip_sched spare (ip_start [] 3 css) (firstn k q)) <> ["10.0.0.2"%string; "10.0.0.3"%string; "10.0.0.4"%string].
Proof.
  cbv zeta. split; [vm_compute; reflexivity|]. intros k. do 31 (destruct k as [|k]; [vm_compute; discriminate|]). vm_compute. discriminate.
Qed.
(* One writer, one reader: the reader returns in the middle of the call of Set. *)
Example C151_witness : let spare n := n in
  let css := [[ISet ["10.0.0.1"%string; "x"%string; "10.0.0.1"%string; "10.0.0.2"%string]]; [IString; IString]] in
  let q := [0; 0; 1; 0; 0; 1; 0; 1; 1; 1] ++ repeat 0 12 ++ repeat 1 6 in
  only_writer 0 css /\ returned (ip_sched spare (ip_start [] 0 css) q) /\
  map texts (gos (ip_sched spare (ip_start [] 0 css) q)) = [[]; [Some []; Some ["10.0.0.1"%string; "10.0.0.2"%string]]] /\
  ip_run (Some []) (sets (nth 0 css [])) = Some ["10.0.0.1"%string; "10.0.0.2"%string].
Proof.
  cbv zeta. split; [|split; [intros g J; vm_compute in J|split; vm_compute; reflexivity]].
  - intros [|[|k]] cs c C N J; [contradiction| |destruct k; discriminate]. injection C as <-. destruct J as [<-|[<-|[]]]; reflexivity.
  - destruct J as [<-|[<-|[]]]; now split.
Qed.
(* Two goroutines that take turns. *)
Example C152_witness : let spare n := n in
  let css := [[ISet ["10.0.0.1"%string]]; [ISet ["10.0.0.2"%string]]] in
  turns spare (ip_start [] 0 css) [1; 1; 1; 1; 1; 0; 0; 0; 0; 0; 0] /\
  returned (ip_sched spare (ip_start [] 0 css) [1; 1; 1; 1; 1; 0; 0; 0; 0; 0; 0]) /\
  shown (ip_sched spare (ip_start [] 0 css) [1; 1; 1; 1; 1; 0; 0; 0; 0; 0; 0]) = ["10.0.0.2"%string; "10.0.0.1"%string] /\
  not_shorter spare (ip_start [] 0 css) [1; 1; 1; 1; 1; 0; 0; 0; 0; 0; 0].
Proof.
  cbv zeta. split; [|split; [intros g J; vm_compute in J|split; [vm_compute; reflexivity|]]].
  - intros a b E i j gi gj Gi Wi Gj Wj.
    do 11 (destruct a as [|? a]; [clear E; vm_compute in Gi, Gj; destruct i as [|[|i]]; destruct j as [|[|j]]; try reflexivity; try (destruct i; discriminate Gi); try (destruct j; discriminate Gj);
      injection Gi as <-; injection Gj as <-; cbn in Wi, Wj; contradiction|injection E as <- E]).
    destruct a; [|discriminate E]. clear E; vm_compute in Gi, Gj; destruct i as [|[|i]]; destruct j as [|[|j]]; try reflexivity; try (destruct i; discriminate Gi); try (destruct j; discriminate Gj);
      injection Gi as <-; injection Gj as <-; cbn in Wi, Wj; contradiction.
  - destruct J as [<-|[<-|[]]]; now split.
  - intros a i b E. do 11 (destruct a as [|? a]; [injection E as <- E; vm_compute; lia|injection E as <- E]). destruct a; discriminate E.
Qed.
Print Assumptions C151_text.
Print Assumptions C151_no_panic.
Print Assumptions C151_grows.
Print Assumptions C151_final.
Print Assumptions C152_given.
Print Assumptions C152_no_panic.
Print Assumptions C152_by_turns.
Print Assumptions C152_refuted.
Print Assumptions C152_text_refuted.
