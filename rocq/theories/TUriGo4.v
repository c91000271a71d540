(* C163: attributes given to a URI while it is replaced as a whole. *)
From Coq Require Import String List PeanoNat NArith Bool Lia.
From Verif Require Import GoStr MMisc MKw MSec MAttr MLevels MLists MFilter MUri MHeap MUriGo SUriGo PWhole TUriGo TUriGo3.
Import ListNotations.
Open Scope list_scope.

Local Notation sched := v_sched.
Local Opaque parseLDAPURI uri_string at_push.
Definition uri_ops (v : uri) : list vop :=
  [VDn (u_dn v); VScope (u_scope v); VKw (ab_kw (u_avbt v)); VPair (ab_pair (u_avbt v)); VNew (u_attrs v); VFilter (u_filter v)].
Lemma push_app l a b : at_push l (a ++ b) = at_push (at_push l a) b.
Proof. Local Transparent at_push. apply fold_left_app. Local Opaque at_push. Qed.
Section Push.
Variables (u v : uri) (s : string) (l : list attype).
Hypothesis P : parseLDAPURI s [] = Some v.
(* the goroutine that gives attributes: before its call, in it, or with the list n read and
   the members a pushed *)
Definition giver (g : vgo) (read : option (nat * list attype)) : Prop :=
  match read with
  | None => vtodo g = [VSet [UAttrs l]] /\ vcur g = [] \/ vtodo g = [] /\ vcur g = VRead 4 :: map VPush l
  | Some (n, a) => exists b, l = a ++ b /\ vtodo g = [] /\ vcur g = map VPush b /\ c_at (vcopy g) = n
  end.
Definition placed (g : vgo) (n : nat) : Prop :=
  match n with 0 => vtodo g = [VSet [UStr s]] /\ vcur g = [] | S n => vtodo g = [] /\ vcur g = skipn n (uri_ops v) end.
Definition word_of (m : vmem) (j : nat) : Prop :=
  let x := view m in
  match j with
  | 0 => u_dn x = u_dn v | 1 => u_scope x = u_scope v | 2 => ab_kw (u_avbt x) = ab_kw (u_avbt v) | 3 => ab_pair (u_avbt x) = ab_pair (u_avbt v)
  | 5 => u_filter x = u_filter v | _ => True end.
Definition lists (m : vmem) (n : nat) (read : option (nat * list attype)) : Prop :=
  if Nat.ltb n 6 then c_at (v_cell m) = 0 /\ List.length (v_stk m) = 1 /\ match read with Some (k, _) => k = 0 | None => True end
  else c_at (v_cell m) = 1 /\ List.length (v_stk m) = 2 /\
       nth 1 (v_stk m) [] = match read with Some (1, a) => at_push (u_attrs v) (map AType a) | _ => u_attrs v end /\
       match read with Some (k, _) => k = 0 \/ k = 1 | None => True end.
Lemma push_run2 q : let st := sched (v_start u [[VSet [UAttrs l]]; [VSet [UStr s]]]) q in
  exists n read g1 g2, vgos st = [g1; g2] /\ giver g1 read /\ placed g2 n /\ (forall j, S j < n -> word_of (vmm st) j) /\ lists (vmm st) n read.
Proof.
  cbn zeta. set (st0 := v_start u _). induction q as [|i q IH] using rev_ind.
  - exists 0, None. do 2 eexists. cbn. split; [reflexivity|]. split; [now left|]. split; [now split|]. split; [lia|]. now repeat split.
  - rewrite v_snoc. set (st := sched st0 q) in *. destruct IH as (n & read & g1 & g2 & G & A1 & A2 & IW & L). unfold v_step. rewrite G.
    destruct i as [|[|i]]; cbn [nth_error].
    + (* the goroutine that gives attributes *)
      destruct read as [[k a]|]; cbn [giver] in A1.
      * destruct A1 as (b & El & T & C & Ca). unfold v_gstep. rewrite C, T. destruct b as [|x b]; cbn [map].
        -- exists n, (Some (k, a)), g1, g2. cbn [vmm vgos wr giver]. split; [reflexivity|]. split; [exists []; now repeat split|]. now repeat split.
        -- cbn [vact lm lcopy ltexts]. rewrite Ca. exists n, (Some (k, a ++ [x])). do 2 eexists. cbn [vmm vgos wr giver vtodo vcur vcopy]. split; [reflexivity|].
           split; [exists b; rewrite <- app_assoc; now repeat split|]. split; [exact A2|]. split.
           ++ intros j J. specialize (IW j J). do 6 (destruct j as [|j]; [exact IW|]). exact Logic.I.
           ++ unfold lists in *. cbn [v_cell v_stk]. rewrite wr_len. destruct (Nat.ltb n 6); [exact L|]. destruct L as (L1 & L2 & L3 & L4).
              split; [assumption|]. split; [assumption|]. split; [|assumption].
              destruct (v_stk (vmm st)) as [|l0 [|l1 [|]]]; try discriminate L2. destruct L4 as [-> | ->]; cbn [wr nth] in *; [exact L3|].
              rewrite L3, map_app, push_app. reflexivity.
      * destruct A1 as [[T C]|[T C]]; unfold v_gstep; rewrite C, T.
        -- exists n, None. do 2 eexists. cbn [vmm vgos wr giver vcall_ops vset_ops]. split; [reflexivity|]. split; [right; cbn [vtodo vcur]; rewrite app_nil_r; now split|]. now repeat split.
        -- cbn [vact lm lcopy ltexts]. exists n, (Some (c_at (v_cell (vmm st)), [])). do 2 eexists. cbn [vmm vgos wr giver vtodo vcur vcopy]. split; [reflexivity|].
           split; [exists l; now repeat split|]. split; [exact A2|]. split; [exact IW|]. unfold lists in *. destruct (Nat.ltb n 6); [destruct L as (L1 & L2 & _); now repeat split|].
           destruct L as (L1 & L2 & L3 & _). rewrite L1. split; [reflexivity|]. split; [assumption|]. split; [exact L3|now right].
    + (* the goroutine that replaces the URI *)
      destruct n as [|n]; cbn [placed] in A2; destruct A2 as [T C]; unfold v_gstep; rewrite C, ?T.
      * exists 1, read. do 2 eexists. cbn [vmm vgos wr placed vcall_ops vset_ops]. rewrite P. split; [reflexivity|]. split; [exact A1|]. split; [now split|]. split; [lia|exact L].
      * destruct (Nat.lt_ge_cases n 6) as [Ln|Ln].
        -- assert (Sk : skipn n (uri_ops v) = nth n (uri_ops v) VText :: skipn (S n) (uri_ops v)) by (do 6 (destruct n as [|n]; [reflexivity|]); lia).
           rewrite Sk. exists (S (S n)), read. do 2 eexists. cbn [vmm vgos wr placed vtodo vcur]. split; [reflexivity|]. split; [exact A1|]. split; [now split|]. split.
           ++ intros j J. assert (Hj : j = n \/ S j < S n) by lia. destruct Hj as [->|Hj].
              ** do 6 (destruct n as [|n]; [reflexivity|]). lia.
              ** specialize (IW j Hj). do 6 (destruct n as [|n]; [do 6 (destruct j as [|j]; [first [exact IW | lia]|]); exact Logic.I|]). lia.
           ++ do 4 (destruct n as [|n]; [exact L|]). destruct n as [|[|n]]; [|exact L|lia].
              unfold lists in *. cbn [Nat.ltb Nat.leb] in *. destruct L as (L1 & L2 & L3). cbn [nth uri_ops vact lm v_cell v_stk c_at]. rewrite L2, app_length, L2.
              split; [reflexivity|]. split; [reflexivity|]. destruct (v_stk (vmm st)) as [|l0 [|]]; try discriminate L2. cbn [app nth].
              destruct read as [[k a]|]; [|now split]. subst k. split; [reflexivity|now left].
        -- assert (Sk : skipn n (uri_ops v) = []) by (apply skipn_all2; cbn; lia). rewrite Sk. exists (S n), read, g1, g2. cbn [vmm vgos wr placed].
           split; [reflexivity|]. split; [exact A1|]. split; [now split|]. now split.
    + exists n, read, g1, g2. destruct i; cbn [nth_error]; now repeat split.
Qed.
End Push.
(* Attributes given while the URI is replaced by one from a text are in the end all there,
   after those of the text, or all lost: and both can come about. *)
Theorem C163_attributes : forall u s v l, parseLDAPURI s [] = Some v -> forall w,
  (exists q, let st := sched (v_start u [[VSet [UAttrs l]]; [VSet [UStr s]]]) q in v_returned st /\ v_uri st = w) <->
  w = v \/ w = MkURI (u_dn v) (u_scope v) (u_avbt v) (at_push (u_attrs v) (map AType l)) (u_filter v).
Proof.
  intros u s v l P w. split.
  - intros (q & R & <-). destruct (push_run2 u v s l P q) as (n & read & g1 & g2 & G & A1 & A2 & IW & L). set (st := sched _ q) in *.
    assert (R1 : vtodo g1 = [] /\ vcur g1 = []) by (apply R; rewrite G; now left).
    assert (R2 : vtodo g2 = [] /\ vcur g2 = []) by (apply R; rewrite G; right; now left).
    assert (Ln : 7 <= n). { destruct n as [|n]; cbn [placed] in A2; destruct A2 as [T C], R2 as [T' C']; [congruence|]. rewrite C' in C. do 6 (destruct n as [|n]; [discriminate C|]). lia. }
    unfold lists in L. replace (Nat.ltb n 6) with false in L by (symmetry; apply Nat.ltb_ge; lia). destruct L as (L1 & L2 & L3 & L4).
    assert (W0 := IW 0 ltac:(lia)). assert (W1 := IW 1 ltac:(lia)). assert (W2 := IW 2 ltac:(lia)). assert (W3 := IW 3 ltac:(lia)). assert (W5 := IW 5 ltac:(lia)).
    assert (V : v_uri st = MkURI (u_dn v) (u_scope v) (u_avbt v) (nth 1 (v_stk (vmm st)) []) (u_filter v)).
    { unfold v_uri, view. unfold word_of, view in W0, W1, W2, W3, W5. cbn [u_dn u_scope u_avbt u_filter ab_kw ab_pair] in *. rewrite W0, W1, W2, W3, W5, L1, abtv_eta. reflexivity. }
    rewrite V, L3. destruct read as [[k a]|]; [|left; apply uri_eta]. destruct L4 as [-> | ->]; [left; apply uri_eta|right].
    destruct A1 as (b & -> & _ & C & _). destruct R1 as [_ C']. rewrite C' in C. destruct b; [|discriminate C]. now rewrite app_nil_r.
  - assert (Push : forall x m ts k, forall g2, vcur g2 = [] -> vtodo g2 = [] ->
       let st := sched (MkVs m [MkVg [] (map VPush x) k ts; g2]) (repeat 0 (List.length x)) in
       v_returned st /\ vmm st = lm (vrun (MkVl m k ts) (map VPush x))).
    { induction x as [|a x IH]; intros m ts k g2 C T; cbn [map List.length repeat].
      - split; [|reflexivity]. intros g [<-|[<-|[]]]; now split.
      - unfold v_sched. cbn [fold_left]. apply (IH (lm (vact (MkVl m k ts) (VPush a))) ts k g2 C T). }
    assert (Ops : forall m k ts g1 t, sched (MkVs m [g1; MkVg t (uri_ops v) k ts]) [1; 1; 1; 1; 1; 1] =
        MkVs (MkVm (MkUC (u_dn v) (u_scope v) (ab_kw (u_avbt v)) (ab_pair (u_avbt v)) (List.length (v_stk m)) (u_filter v)) (v_stk m ++ [u_attrs v])) [g1; MkVg t [] k ts]) by reflexivity.
    intros H. destruct H as [-> | ->].
    + exists ([0; 0; 1] ++ [1; 1; 1; 1; 1; 1] ++ repeat 0 (List.length l)). cbn zeta. rewrite !v_app.
      assert (S1 : sched (v_start u [[VSet [UAttrs l]]; [VSet [UStr s]]]) [0; 0; 1] =
        MkVs (vmem_of u) [MkVg [] (map VPush l) blank []; MkVg [] (uri_ops v) blank []]) by (cbn; rewrite P, app_nil_r; reflexivity).
      rewrite S1, Ops. match goal with |- context [sched (MkVs ?m _) _] => set (m1 := m) end.
      destruct (Push l m1 [] blank (MkVg [] [] blank []) eq_refl eq_refl) as [R M]. split; [exact R|]. unfold v_uri. rewrite M.
      (* pushes to the first list *)
      assert (Keep : forall x m, c_at (v_cell m) = 1 -> List.length (v_stk m) = 2 -> view (lm (vrun (MkVl m blank []) (map VPush x))) = view m).
      { induction x as [|a x IH]; intros m E1 E2; [reflexivity|]. cbn [map vrun fold_left]. change (fold_left vact (map VPush x) ?z) with (vrun z (map VPush x)).
        cbn [vact lm lcopy ltexts]. rewrite IH; cbn [v_cell v_stk]; [|assumption|now rewrite wr_len]. unfold view. cbn [v_cell v_stk]. rewrite E1. cbn [c_at blank].
        destruct (v_stk m) as [|l0 [|l1 [|]]]; try discriminate E2. reflexivity. }
      rewrite Keep by reflexivity. unfold view, m1. cbn. rewrite abtv_eta. apply uri_eta.
    + exists ([1] ++ [1; 1; 1; 1; 1; 1] ++ [0; 0] ++ repeat 0 (List.length l)). cbn zeta. rewrite !v_app.
      assert (S1 : sched (v_start u [[VSet [UAttrs l]]; [VSet [UStr s]]]) [1] =
        MkVs (vmem_of u) [MkVg [VSet [UAttrs l]] [] blank []; MkVg [] (uri_ops v) blank []]) by (cbn; rewrite P; reflexivity).
      rewrite S1, Ops. cbn [vmem_of v_stk List.length app].
      match goal with |- context [sched (MkVs ?m [?g1; ?g2]) [0; 0]] => set (m1 := m);
        assert (S2 : sched (MkVs m1 [g1; g2]) [0; 0] = MkVs m1 [MkVg [] (map VPush l) (copy_word 4 (v_cell m1) blank) []; g2]) by (cbn; rewrite app_nil_r; reflexivity) end.
      rewrite S2. destruct (Push l m1 [] (copy_word 4 (v_cell m1) blank) (MkVg [] [] blank []) eq_refl eq_refl) as [R M]. split; [exact R|]. unfold v_uri. rewrite M.
      destruct (push_run l (MkVl m1 (copy_word 4 (v_cell m1) blank) [])) as (_ & _ & D); [unfold wf; cbn; lia|reflexivity|]. rewrite D. cbn [lm].
      unfold view. cbn. now rewrite abtv_eta.
Qed.
Print Assumptions C163_attributes.
Local Transparent parseLDAPURI uri_string at_push.
Example C163_attributes_witness : parseLDAPURI textB [] = Some uriB /\ at_push (u_attrs uriB) (map AType [AT "uid"]) <> u_attrs uriB.
Proof. split; [apply readB|]. vm_compute. discriminate. Qed.
