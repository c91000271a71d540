(* C164: URIs set as a whole, by goroutines. *)
From Coq Require Import String List PeanoNat NArith Bool Lia.
From Verif Require Import GoStr MMisc MKw MSec MAttr MLevels MLists MFilter MUri MHeap MUriGo SUriGo PWhole TUriGo.
Import ListNotations.
Open Scope list_scope.

Local Notation sched := v_sched.
Local Opaque parseLDAPURI uri_string.

(* ---- goroutines that take turns ---- *)
Lemma view_of u : view (vmem_of u) = u.
Proof. unfold view, vmem_of. cbn [v_cell v_stk c_dn c_scope c_kw c_pair c_at c_filter nth]. rewrite abtv_eta. apply uri_eta. Qed.
Lemma calls_app i a b : calls_of i (a ++ b) = calls_of i a ++ calls_of i b.
Proof. unfold calls_of. now rewrite filter_app, map_app. Qed.
Lemma calls_one i j c : calls_of i [(j, c)] = if Nat.eqb i j then [c] else [].
Proof. unfold calls_of. cbn. now destruct (Nat.eqb i j). Qed.
Lemma empty_set u xs : vset_ops xs = [] -> uri_set u xs = u.
Proof.
  intros E. destruct (set_run xs (MkVl (vmem_of u) blank [])) as (_ & _ & D); [unfold wf; cbn; lia|]. rewrite E in D. cbn in D. now rewrite view_of in D.
Qed.
Definition in_turn (u : uri) (css : list (list vcall)) (st : vstate) (log : list (nat * vcall)) : Prop :=
  (forall j g, nth_error (vgos st) j = Some g -> exists cs, nth_error css j = Some cs /\ calls_of j log ++ vtodo g = cs) /\
  exists i m, wf m /\ view m = serial u log /\
    (forall j g, nth_error (vgos st) j = Some g -> j <> i -> vcur g = [] /\ vtexts g = said j u log) /\
    match nth_error (vgos st) i with
    | Some g => let s := vrun (MkVl (vmm st) (vcopy g) (vtexts g)) (vcur g) in lm s = m /\ ltexts s = said i u log
    | None => vmm st = m
    end.
Lemma turn_run u css q : v_turns (v_start u css) q -> exists log, in_turn u css (sched (v_start u css) q) log.
Proof.
  induction q as [|k q IH] using rev_ind; intros Tu.
  - exists []. change (sched (v_start u css) []) with (v_start u css). split.
    + intros j g E. apply start_at in E as (cs & E & ->). now exists cs.
    + exists 0, (vmem_of u). split; [unfold wf; cbn; lia|]. split; [apply view_of|]. split.
      * intros j g E _. apply start_at in E as (cs & E & ->). now split.
      * destruct (nth_error (vgos (v_start u css)) 0) as [g|] eqn:E; [|reflexivity]. apply start_at in E as (cs & E & ->). now split.
  - assert (Tq : v_turns (v_start u css) q). { intros a b ->. apply (Tu a (b ++ [k])). now rewrite <- app_assoc. }
    destruct (IH Tq) as [log [Lg (i & m & Wm & Vm & Oth & Cur)]].
    assert (After := Tu (q ++ [k]) [] (eq_sym (app_nil_r _))). rewrite v_snoc in After |- *. set (st := sched (v_start u css) q) in *.
    destruct (nth_error (vgos st) k) as [g|] eqn:K.
    2:{ exists log. rewrite v_step_none by assumption. split; [assumption|]. now exists i, m. }
    destruct (v_step_go st k g K) as (R & N & O). unfold v_gstep in R, N. destruct (vcur g) as [|o r] eqn:C.
    + destruct (vtodo g) as [|c t] eqn:T; cbn [fst snd] in R, N.
      * (* nothing to do *)
        assert (Sm : forall j, nth_error (vgos (v_step st k)) j = nth_error (vgos st) j).
        { intros j. destruct (Nat.eq_dec j k) as [->|D]; [congruence|now apply O]. }
        exists log. split; [intros j h; rewrite Sm; apply Lg|]. exists i, m. rewrite R, Sm. split; [assumption|]. split; [assumption|]. split; [|assumption].
        intros j h. rewrite Sm. apply Oth.
      * (* a call begins *)
        assert (TK : vtexts g = said k u log).
        { destruct (Nat.eq_dec k i) as [->|D]; [|now apply (Oth k g)]. rewrite K, C in Cur. now destruct Cur. }
        exists (log ++ [(k, c)]). split.
        -- intros j h J. rewrite calls_app, calls_one. destruct (Nat.eq_dec j k) as [->|D].
           ++ rewrite N in J. injection J as <-. destruct (Lg k g K) as (cs & E & F). exists cs. split; [assumption|]. rewrite Nat.eqb_refl. cbn [vtodo].
              rewrite <- F, T, <- app_assoc. reflexivity.
           ++ rewrite O in J by assumption. destruct (Lg j h J) as (cs & E & F). exists cs. split; [assumption|].
              destruct (Nat.eqb_spec j k); [contradiction|]. now rewrite app_nil_r.
        -- assert (Sd : forall j, j <> k -> said j u (log ++ [(k, c)]) = said j u log).
           { intros j D. rewrite said_app. destruct c; cbn [said]; [now rewrite app_nil_r|]. destruct (Nat.eqb_spec j k); [contradiction|]. apply app_nil_r. }
           destruct (vcall_ops c) as [|o' r'] eqn:Op.
           ++ (* and is over at once *)
              destruct c as [xs|]; [|discriminate Op]. cbn [vcall_ops] in Op.
              assert (Sk : said k u (log ++ [(k, VSet xs)]) = said k u log) by (rewrite said_app; cbn [said]; apply app_nil_r).
              exists i, m. split; [assumption|]. split; [rewrite serial_app; cbn [serial]; rewrite empty_set by assumption; assumption|]. split.
              ** intros j h J D. destruct (Nat.eq_dec j k) as [->|Dk].
                 --- rewrite N in J. injection J as <-. cbn [vcur vtexts]. now rewrite Sk.
                 --- rewrite O in J by assumption. rewrite Sd by assumption. now apply Oth.
              ** rewrite R. destruct (Nat.eq_dec i k) as [->|Dk].
                 --- rewrite N. cbn [vcur vcopy vtexts vrun fold_left lm ltexts]. rewrite K, C in Cur. cbn in Cur. now rewrite Sk.
                 --- rewrite O by assumption. destruct (nth_error (vgos st) i) as [gi|]; [|assumption]. rewrite Sd by assumption. exact Cur.
           ++ (* nobody else is in a call *)
              assert (Quiet : forall j h, nth_error (vgos st) j = Some h -> vcur h = []).
              { intros j h J. destruct (Nat.eq_dec j k) as [->|D]; [congruence|]. destruct (vcur h) as [|o2 r2] eqn:Ch; [reflexivity|]. exfalso. apply D.
                apply (After j k h _) with (3 := N); [now rewrite O|rewrite Ch; discriminate|discriminate]. }
              assert (Mm : vmm st = m). { destruct (nth_error (vgos st) i) as [gi|] eqn:Gi; [|assumption]. rewrite (Quiet i gi Gi) in Cur. now destruct Cur. }
              destruct (call_run c (MkVl (vmm st) (vcopy g) (vtexts g)) k k) as (A & B & D); [now rewrite Mm|]. cbn [lm ltexts] in A, B, D.
              exists k, (lm (vrun (MkVl (vmm st) (vcopy g) (vtexts g)) (vcall_ops c))). split; [exact A|].
              split; [rewrite B, serial_app, Mm, Vm; reflexivity|]. split.
              ** intros j h J Dj. rewrite O in J by assumption. rewrite Sd by assumption. split; [now apply (Quiet j)|].
                 destruct (Nat.eq_dec j i) as [->|Di]; [|now apply (Oth j h)]. rewrite J, (Quiet i h J) in Cur. now destruct Cur.
              ** rewrite R, N. cbn [vcur vcopy vtexts]. rewrite <- Op. split; [reflexivity|]. rewrite D, said_app, <- Vm, <- Mm, TK. reflexivity.
    + (* in a call *)
      assert (k = i) as ->. { destruct (Nat.eq_dec k i) as [->|D]; [reflexivity|]. destruct (Oth k g K D) as [X _]. congruence. }
      rewrite K, C in Cur. cbn [fst snd] in R, N. exists log. split.
      * intros j h J. destruct (Nat.eq_dec j i) as [->|D]; [rewrite N in J; injection J as <-; cbn [vtodo]; now apply Lg|]. rewrite O in J by assumption. now apply Lg.
      * exists i, m. split; [assumption|]. split; [assumption|]. split.
        -- intros j h J D. rewrite O in J by assumption. now apply Oth.
        -- rewrite R, N. cbn [vcur vcopy vtexts]. cbn [vrun fold_left] in Cur. now destruct (vact _ o).
Qed.
(* Goroutines whose calls do not overlap: there is an order of the calls begun, with those of
   each goroutine in their order, such that while no call runs the URI and all texts
   returned are those of the calls made one after the other. *)
Theorem C164_by_turns : forall u css q, v_turns (v_start u css) q -> let st := sched (v_start u css) q in
  exists log, (forall j g, nth_error (vgos st) j = Some g -> exists cs, nth_error css j = Some cs /\ calls_of j log ++ vtodo g = cs) /\
    (v_quiet st -> v_uri st = serial u log /\ forall j g, nth_error (vgos st) j = Some g -> vtexts g = said j u log).
Proof.
  intros u css q Tu st. destruct (turn_run u css q Tu) as [log [Lg (i & m & Wm & Vm & Oth & Cur)]]. fold st in Lg, Oth, Cur. exists log. split; [assumption|].
  intros Q. destruct (nth_error (vgos st) i) as [gi|] eqn:Gi.
  - rewrite (Q gi (nth_error_In _ _ Gi)) in Cur. cbn in Cur. destruct Cur as [M T]. split; [unfold v_uri; now rewrite M|].
    intros j g J. destruct (Nat.eq_dec j i) as [->|D]; [congruence|now apply Oth].
  - split; [unfold v_uri; now rewrite Cur|]. intros j g J. apply Oth; [assumption|]. intros ->. congruence.
Qed.
Print Assumptions C164_by_turns.

(* ---- whole URIs come apart ---- *)
Definition alt (b : bool) (w r : nat) : list nat := if b then [w; r] else [r; w].
(* whatever the URIs: a call of String beside one call of Set can return the text of any
   mixture of the old and the new one *)
Theorem C164_torn : forall u s v w, parseLDAPURI s [] = Some v -> mixed u v w ->
  exists q g, let st := sched (v_start u [[VSet [UStr s]]; [VString]]) q in
    v_returned st /\ In g (vgos st) /\ vtexts g = [uri_string w].
Proof.
  intros u s v w P (M0 & M1 & M2 & M3 & M4 & M5).
  assert (Run : exists b0 b1 b2 b3 b4 b5, let st := sched (v_start u [[VSet [UStr s]]; [VString]]) ([0; 1] ++ alt b0 0 1 ++ alt b1 0 1 ++ alt b2 0 1 ++ alt b3 0 1 ++ alt b4 0 1 ++ alt b5 0 1 ++ [1]) in
    map (fun g => (vtodo g, vcur g, vtexts g)) (vgos st) = [([], [], []); ([], [], [uri_string w])]).
  { destruct w as [d n [k p] l f], u as [d1 n1 [k1 p1] l1 f1], v as [d2 n2 [k2 p2] l2 f2]. cbn [u_dn u_scope u_avbt u_attrs u_filter ab_kw ab_pair] in *.
    assert (B0 : exists b : bool, d = if b then d2 else d1) by (destruct M0 as [-> | ->]; [now exists false|now exists true]).
    assert (B1 : exists b : bool, n = if b then n2 else n1) by (destruct M1 as [-> | ->]; [now exists false|now exists true]).
    assert (B2 : exists b : bool, k = if b then k2 else k1) by (destruct M2 as [-> | ->]; [now exists false|now exists true]).
    assert (B3 : exists b : bool, p = if b then p2 else p1) by (destruct M3 as [-> | ->]; [now exists false|now exists true]).
    assert (B4 : exists b : bool, l = if b then l2 else l1) by (destruct M4 as [-> | ->]; [now exists false|now exists true]).
    assert (B5 : exists b : bool, f = if b then f2 else f1) by (destruct M5 as [-> | ->]; [now exists false|now exists true]).
    clear M0 M1 M2 M3 M4 M5. destruct B0 as [b0 ->], B1 as [b1 ->], B2 as [b2 ->], B3 as [b3 ->], B4 as [b4 ->], B5 as [b5 ->].
    exists b0, b1, b2, b3, b4, b5. cbn zeta. unfold v_sched. rewrite fold_left_app.
    replace (fold_left v_step [0; 1] _) with
      (MkVs (vmem_of (MkURI d1 n1 (MkABTV k1 p1) l1 f1)) [MkVg [] [VDn d2; VScope n2; VKw k2; VPair p2; VNew l2; VFilter f2] blank []; MkVg [] (vcall_ops VString) blank []])
      by (cbn; rewrite P; reflexivity).
    destruct b0, b1, b2, b3, b4, b5; reflexivity. }
  destruct Run as (b0 & b1 & b2 & b3 & b4 & b5 & Run).
  match type of Run with let st := sched _ ?q in _ => exists q end. cbn zeta in *.
  set (st := sched _ _) in *. destruct (vgos st) as [|g1 [|g2 [|g3 l]]] eqn:G; try discriminate Run. cbn [map] in Run. injection Run as A1 A2 A3 B1 B2 B3.
  exists g2. split; [|split; [right; now left|assumption]]. intros g. rewrite G. intros [<-|[<-|[]]]; now split.
Qed.
(* exactly: two goroutines that each set the URI from a text leave a mixture of the two URIs,
   and every mixture can come about *)
Theorem C164_exact : forall u s1 s2 v1 v2, parseLDAPURI s1 [] = Some v1 -> parseLDAPURI s2 [] = Some v2 -> forall w,
  (exists q, let st := sched (v_start u [[VSet [UStr s1]]; [VSet [UStr s2]]]) q in v_returned st /\ v_uri st = w) <-> mixed v1 v2 w.
Proof.
  intros u s1 s2 v1 v2 P1 P2 w. split.
  - intros (q & R & <-). set (st0 := v_start u [[VSet [UStr s1]]; [VSet [UStr s2]]]) in *.
    set (ops := fun v => [VDn (u_dn v); VScope (u_scope v); VKw (ab_kw (u_avbt v)); VPair (ab_pair (u_avbt v)); VNew (u_attrs v); VFilter (u_filter v)]).
    set (go := fun s v (n : nat) g => match n with
        | 0 => vtodo g = [VSet [UStr s]] /\ vcur g = []
        | S n => vtodo g = [] /\ vcur g = skipn n (ops v) end).
    set (word := fun m j => let x := view m in match j with
        | 0 => u_dn x = u_dn v1 \/ u_dn x = u_dn v2 | 1 => u_scope x = u_scope v1 \/ u_scope x = u_scope v2
        | 2 => ab_kw (u_avbt x) = ab_kw (u_avbt v1) \/ ab_kw (u_avbt x) = ab_kw (u_avbt v2)
        | 3 => ab_pair (u_avbt x) = ab_pair (u_avbt v1) \/ ab_pair (u_avbt x) = ab_pair (u_avbt v2)
        | 4 => u_attrs x = u_attrs v1 \/ u_attrs x = u_attrs v2
        | 5 => u_filter x = u_filter v1 \/ u_filter x = u_filter v2 | _ => True end).
    assert (St : forall m c ts n v, v = v1 \/ v = v2 -> n < 6 -> (forall j, j <> n -> word m j -> word (lm (vact (MkVl m c ts) (nth n (ops v) VText))) j) /\
        word (lm (vact (MkVl m c ts) (nth n (ops v) VText))) n).
    { intros m c ts n v Hv Hn. split.
      - intros j D Wj. do 6 (destruct n as [|n]; [do 6 (destruct j as [|j]; [first [exact Wj | now destruct D]|]); exact Logic.I|]). lia.
      - do 6 (destruct n as [|n]; [unfold word, view; cbn; rewrite ?nth_app_end; destruct Hv as [-> | ->]; [now left|now right]|]). lia. }
    assert (Inv : exists n1 n2 g1 g2, vgos (sched st0 q) = [g1; g2] /\ go s1 v1 n1 g1 /\ go s2 v2 n2 g2 /\
       forall j, S j < n1 \/ S j < n2 -> word (vmm (sched st0 q)) j).
    { clear R. induction q as [|i q IH] using rev_ind.
      - exists 0, 0. do 2 eexists. cbn. repeat split; lia.
      - rewrite v_snoc. set (st := sched st0 q) in *. destruct IH as (n1 & n2 & g1 & g2 & G & A1 & A2 & IW). unfold v_step. rewrite G.
        (* one step of a goroutine at place n *)
        assert (One : forall s v n g m, v = v1 \/ v = v2 -> parseLDAPURI s [] = Some v -> go s v n g -> exists n', go s v n' (snd (v_gstep m g)) /\ n <= n' /\
           forall j, word m j \/ S j < n' /\ ~ S j < n -> word (fst (v_gstep m g)) j).
        { intros s v n g m Hv P A. destruct n as [|n]; cbn [go] in A; destruct A as [At Ac]; unfold v_gstep; rewrite Ac, ?At.
          - cbn [fst snd vcall_ops vset_ops]. rewrite P. exists 1. cbn [go vtodo vcur skipn]. split; [now split|]. split; [lia|]. intros j [H|H]; [assumption|lia].
          - destruct (Nat.lt_ge_cases n 6) as [L|L].
            + assert (Sk : skipn n (ops v) = nth n (ops v) VText :: skipn (S n) (ops v)) by (do 6 (destruct n as [|n]; [reflexivity|]); lia).
              rewrite Sk. cbn [fst snd]. destruct (St m (vcopy g) (vtexts g) n v Hv L) as [S1 S2]. exists (S (S n)). cbn [go vtodo vcur]. split; [now split|]. split; [lia|].
              intros j H. destruct (Nat.eq_dec j n) as [->|D]; [assumption|]. apply S1; [assumption|]. destruct H as [H|H]; [assumption|lia].
            + assert (Sk : skipn n (ops v) = []) by (apply skipn_all2; cbn; lia). rewrite Sk. cbn [fst snd]. exists (S n). cbn [go]. rewrite At, Ac. split; [now split|]. split; [lia|].
              intros j [H|H]; [assumption|lia]. }
        destruct i as [|[|i]]; cbn [nth_error].
        + destruct (One s1 v1 n1 g1 (vmm st)) as (n' & Gn & Le & Wn); auto. destruct (v_gstep (vmm st) g1) as [m' g']. cbn [fst snd] in *. cbn [vmm vgos wr].
          exists n', n2, g', g2. split; [reflexivity|]. split; [assumption|]. split; [assumption|]. intros j J. apply Wn.
          destruct (Nat.lt_ge_cases (S j) n1); [left; apply IW; now left|]. destruct J as [J|J]; [right; lia|left; apply IW; now right].
        + destruct (One s2 v2 n2 g2 (vmm st)) as (n' & Gn & Le & Wn); auto. destruct (v_gstep (vmm st) g2) as [m' g']. cbn [fst snd] in *. cbn [vmm vgos wr].
          exists n1, n', g1, g'. split; [reflexivity|]. split; [assumption|]. split; [assumption|]. intros j J. apply Wn.
          destruct (Nat.lt_ge_cases (S j) n2); [left; apply IW; now right|]. destruct J as [J|J]; [left; apply IW; now left|right; lia].
        + exists n1, n2, g1, g2. destruct i; cbn [nth_error]; now repeat split. }
    destruct Inv as (n1 & n2 & g1 & g2 & G & A1 & _ & IW). assert (R1 : vtodo g1 = [] /\ vcur g1 = []) by (apply R; rewrite G; now left).
    assert (L : 7 <= n1).
    { destruct n1 as [|n]; cbn [go] in A1; destruct A1 as [At Ac], R1 as [Rt Rc]; [congruence|]. rewrite Rc in Ac. do 6 (destruct n as [|n]; [discriminate Ac|]). lia. }
    repeat apply conj; [apply (IW 0)|apply (IW 1)|apply (IW 2)|apply (IW 3)|apply (IW 4)|apply (IW 5)]; lia.
  - intros (M0 & M1 & M2 & M3 & M4 & M5).
    assert (Run : exists b0 b1 b2 b3 b4 b5, let st := sched (v_start u [[VSet [UStr s1]]; [VSet [UStr s2]]]) ([0; 1] ++ alt b0 0 1 ++ alt b1 0 1 ++ alt b2 0 1 ++ alt b3 0 1 ++ alt b4 0 1 ++ alt b5 0 1) in
      map (fun g => (vtodo g, vcur g)) (vgos st) = [([], []); ([], [])] /\ v_uri st = w).
    { destruct w as [d n [k p] l f], v1 as [d1 n1 [k1 p1] l1 f1], v2 as [d2 n2 [k2 p2] l2 f2]. cbn [u_dn u_scope u_avbt u_attrs u_filter ab_kw ab_pair] in *.
      assert (B0 : exists b : bool, d = if b then d2 else d1) by (destruct M0 as [-> | ->]; [now exists false|now exists true]).
      assert (B1 : exists b : bool, n = if b then n2 else n1) by (destruct M1 as [-> | ->]; [now exists false|now exists true]).
      assert (B2 : exists b : bool, k = if b then k2 else k1) by (destruct M2 as [-> | ->]; [now exists false|now exists true]).
      assert (B3 : exists b : bool, p = if b then p2 else p1) by (destruct M3 as [-> | ->]; [now exists false|now exists true]).
      assert (B4 : exists b : bool, l = if b then l2 else l1) by (destruct M4 as [-> | ->]; [now exists false|now exists true]).
      assert (B5 : exists b : bool, f = if b then f2 else f1) by (destruct M5 as [-> | ->]; [now exists false|now exists true]).
      clear M0 M1 M2 M3 M4 M5. destruct B0 as [b0 ->], B1 as [b1 ->], B2 as [b2 ->], B3 as [b3 ->], B4 as [b4 ->], B5 as [b5 ->].
      exists b0, b1, b2, b3, b4, b5. cbn zeta. unfold v_sched. rewrite fold_left_app.
      replace (fold_left v_step [0; 1] _) with
        (MkVs (vmem_of u) [MkVg [] [VDn d1; VScope n1; VKw k1; VPair p1; VNew l1; VFilter f1] blank []; MkVg [] [VDn d2; VScope n2; VKw k2; VPair p2; VNew l2; VFilter f2] blank []])
        by (cbn; rewrite P1, P2; reflexivity).
      destruct b0, b1, b2, b3, b4, b5; split; reflexivity. }
    destruct Run as (b0 & b1 & b2 & b3 & b4 & b5 & Run & E).
    match type of E with v_uri (sched _ ?q) = _ => exists q end. cbn zeta in *. split; [|exact E].
    set (st := sched _ _) in *. destruct (vgos st) as [|g1 [|g2 [|g3 l]]] eqn:G; try discriminate Run. cbn [map] in Run. injection Run as A1 A2 B1 B2.
    intros g. rewrite G. intros [<-|[<-|[]]]; now split.
Qed.
Local Transparent parseLDAPURI uri_string.
Print Assumptions C164_torn.
Print Assumptions C164_exact.
(* false of the code: with whole URIs set, a text that is of none of them, and a URI in the
   end that is none of them *)
Definition textA : string := "ldap:///cn=a?cn?one?(x=1)".
Definition textB : string := "ldap:///cn=b?sn,l?sub?(y=2)".
Definition uriA : uri := match parseLDAPURI textA [] with Some u => u | None => uri_new end.
Definition uriB : uri := match parseLDAPURI textB [] with Some u => u | None => uri_new end.
Lemma readA : parseLDAPURI textA [] = Some uriA. Proof. vm_compute. reflexivity. Qed.
Lemma readB : parseLDAPURI textB [] = Some uriB. Proof. vm_compute. reflexivity. Qed.
Definition uriAB : uri := MkURI (u_dn uriA) (u_scope uriB) (u_avbt uriA) (u_attrs uriA) (u_filter uriB).
Lemma mixAB : mixed uriA uriB uriAB. Proof. unfold mixed, uriAB. cbn [u_dn u_scope u_avbt u_attrs u_filter]. tauto. Qed.
Theorem C164_refuted :
  ~ (forall u css q, (forall cs, In cs css -> whole_uris cs) -> let st := sched (v_start u css) q in
     forall g t, In g (vgos st) -> In t (vtexts g) -> exists v, (v = u \/ uri_given css v) /\ t = uri_string v) /\
  ~ (forall u css q, (forall cs, In cs css -> whole_uris cs) -> let st := sched (v_start u css) q in
     v_returned st -> v_uri st = u \/ uri_given css (v_uri st)).
Proof.
  split; intros H.
  - destruct (C164_torn uriA textB uriB uriAB readB mixAB) as (q & g & R & I & T).
    destruct (H uriA [[VSet [UStr textB]]; [VString]] q) with (g := g) (t := uri_string uriAB) as (v & D & E); trivial.
    + intros cs [<-|[<-|[]]] c [<-|[]]; [right; exists textB, uriB; exact (conj eq_refl readB)|now left].
    + rewrite T. now left.
    + assert (K : v = uriA \/ v = uriB).
      { destruct D as [->|(cs & s & [<-|[<-|[]]] & [J|[]] & P)]; [now left| |discriminate J]. injection J as <-. rewrite readB in P. injection P as ->. now right. }
      destruct K as [-> | ->]; vm_compute in E; discriminate E.
  - destruct (proj2 (C164_exact uriA textA textB uriA uriB readA readB uriAB) mixAB) as (q & R & E).
    destruct (H uriA [[VSet [UStr textA]]; [VSet [UStr textB]]] q) as [D|(cs & s & I & J & P)]; trivial.
    + intros cs [<-|[<-|[]]] c [<-|[]]; right; [exists textA, uriA; exact (conj eq_refl readA)|exists textB, uriB; exact (conj eq_refl readB)].
    + rewrite E in D. vm_compute in D. discriminate D.
    + rewrite E in P. destruct I as [<-|[<-|[]]]; destruct J as [J|[]]; injection J as <-; [rewrite readA in P|rewrite readB in P]; injection P as P; vm_compute in P; discriminate P.
Qed.
Print Assumptions C164_refuted.

(* concrete cases *)
Definition v_idle (g : vgo) : bool := match vtodo g, vcur g with [], [] => true | _, _ => false end.
Example C163_witness :
  let css := [[VSet [UOther; UScope 3; UAttrs [AT "uid"; AT "mail"]]; VString]; [VSet [UStr "none"; UDn (u_dn uriB)]]; [VString; VString]] in
  let st := sched (v_start uriA css) [2; 2; 0; 1; 0; 1; 0; 2; 0; 2; 2; 2; 2; 2; 0; 0; 0; 0; 0; 0; 0; 0; 0] in
  map vtexts (vgos st) = [["ldap:///cn=b?cn,uid,mail?sub?(x=1)"%string]; []; ["ldap:///cn=a?cn,uid?sub?(x=1)"%string]] /\
  v_gives css (PDn (u_dn uriB)) /\ has_part (v_uri st) (PDn (u_dn uriB)) /\ dn_isZero (u_dn uriA) = false /\ dn_isZero (u_dn uriB) = false.
Proof.
  cbn zeta. split; [vm_compute; reflexivity|]. split; [|split; [vm_compute; reflexivity|split; vm_compute; reflexivity]].
  eexists _, [UStr "none"], (UDn (u_dn uriB)), []. split; [right; left; reflexivity|]. split; [left; reflexivity|]. split; [|reflexivity].
  repeat constructor.
Qed.
Example C163_sole_witness :
  let css := [[VSet [UDn (u_dn uriB); UFilter None]; VString; VSet [UScope 1]]; [VString; VString]] in
  let st := sched (v_start uriA css) (List.concat (repeat [0; 1] 20)) in
  forallb v_idle (vgos st) = true /\ map vtexts (firstn 1 (vgos st)) = [["ldap:///cn=b??one?"%string]] /\
  uri_string (v_uri st) = "ldap:///cn=b??base?"%string.
Proof. repeat apply conj; vm_compute; reflexivity. Qed.
Example C164_by_turns_witness :
  let st := v_start uriA [[VSet [UStr textB]]; [VString]] in
  v_turns st (repeat 0 7 ++ repeat 1 8) /\ map vtexts (vgos (sched st (repeat 0 7 ++ repeat 1 8))) = [[]; [textB]].
Proof.
  cbn zeta. split; [|vm_compute; reflexivity]. intros a b E i j gi gj Gi Ci Gj Cj.
  set (css := [[VSet [UStr textB]]; [VString]]) in *.
  set (busy := fun g => match vcur g with [] => false | _ => true end).
  assert (L : List.length a <= 15). { assert (X := f_equal (@List.length nat) E). rewrite !app_length in X. cbn in X. lia. }
  assert (F : firstn (List.length a) (repeat 0 7 ++ repeat 1 8) = a). { rewrite E, firstn_app, firstn_all, Nat.sub_diag. cbn. apply app_nil_r. }
  assert (B : forall n, n <= 15 -> map busy (vgos (sched (v_start uriA css) (firstn n (repeat 0 7 ++ repeat 1 8)))) = [true; false] \/
    map busy (vgos (sched (v_start uriA css) (firstn n (repeat 0 7 ++ repeat 1 8)))) = [false; true] \/
    map busy (vgos (sched (v_start uriA css) (firstn n (repeat 0 7 ++ repeat 1 8)))) = [false; false]).
  { intros n Ln. do 16 (destruct n as [|n]; [first [left; vm_compute; reflexivity | right; left; vm_compute; reflexivity | right; right; vm_compute; reflexivity]|]). lia. }
  specialize (B _ L). rewrite F in B. apply (map_nth_error busy) in Gi, Gj.
  assert (Bi : busy gi = true) by (unfold busy; now destruct (vcur gi)). assert (Bj : busy gj = true) by (unfold busy; now destruct (vcur gj)).
  rewrite Bi in Gi. rewrite Bj in Gj.
  destruct B as [B|[B|B]]; rewrite B in Gi, Gj; destruct i as [|[|[|i]]], j as [|[|[|j]]]; cbn in Gi, Gj; try discriminate; reflexivity.
Qed.
