(* C163, C164: the moments at which a URI is read; URIs set as a whole, by goroutines. *)
From Coq Require Import String List PeanoNat NArith Bool Lia.
From Verif Require Import GoStr MMisc MKw MSec MAttr MLevels MLists MFilter MUri MHeap MUriGo SUriGo PWhole TUriGo.
Import ListNotations.
Open Scope list_scope.

Local Notation sched := v_sched.

(* ---- the moments of the reads ---- *)
Definition same_word (j : nat) (c d : ucell) : Prop :=
  match j with
  | 0 => c_dn c = c_dn d | 1 => c_scope c = c_scope d | 2 => c_kw c = c_kw d | 3 => c_pair c = c_pair d
  | 4 => c_at c = c_at d | 5 => c_filter c = c_filter d | _ => True
  end.
Section Moments.
Variables (u0 : uri) (css : list (list vcall)).
Notation at_ q := (sched (v_start u0 css) q).
(* goroutine i is in a call, k texts returned *)
Definition within (q : list nat) (i k : nat) : Prop :=
  exists g, nth_error (vgos (at_ q)) i = Some g /\ vcur g <> [] /\ List.length (vtexts g) = k.
(* the words before the n-th of the copy c were read at the moments l *)
Definition read_at (q : list nat) (i k n : nat) (c : ucell) (l : nat -> nat) : Prop :=
  forall j, j < n -> l j < List.length q /\ (forall j', j' < j -> l j' < l j) /\ within (firstn (l j) q) i k /\
    same_word j c (v_cell (vmm (at_ (firstn (l j) q)))).
Lemma firstn_snoc {A} n (q : list A) x : n <= List.length q -> firstn n (q ++ [x]) = firstn n q.
Proof. intros L. rewrite firstn_app. replace (n - List.length q) with 0 by lia. cbn. apply app_nil_r. Qed.
Lemma read_more q x i k n c l : read_at q i k n c l -> read_at (q ++ [x]) i k n c l.
Proof.
  intros H j J. destruct (H j J) as (A & B & C & D). rewrite app_length. cbn [List.length]. split; [lia|]. split; [assumption|].
  rewrite firstn_snoc by lia. now split.
Qed.
Definition text_at (q : list nat) (i k : nat) (t : string) : Prop :=
  exists l c, read_at q i k 6 c l /\ l 6 < List.length q /\ (forall j, j < 6 -> l j < l 6) /\ within (firstn (l 6) q) i k /\
    t = uri_string (view (MkVm c (v_stk (vmm (at_ (firstn (l 6) q)))))).
Definition reads_ok (q : list nat) (i : nat) (g : vgo) : Prop :=
  (In VText (vcur g) -> exists n l, n <= 6 /\ vcur g = skipn n (vcall_ops VString) /\ read_at q i (List.length (vtexts g)) n (vcopy g) l) /\
  forall k t, nth_error (vtexts g) k = Some t -> text_at q i k t.
Lemma text_more q x i k t : text_at q i k t -> text_at (q ++ [x]) i k t.
Proof.
  intros (l & c & A & B & C & D & E). exists l, c. rewrite app_length, firstn_snoc by lia. cbn [List.length]. split; [now apply read_more|]. split; [lia|]. now split.
Qed.
Lemma moments_run q : forall i g, nth_error (vgos (at_ q)) i = Some g -> reads_ok q i g.
Proof.
  induction q as [|x q IH] using rev_ind; intros i g E.
  - apply start_at in E as (cs & _ & ->). split; [intros []|]. intros [|k] t T; discriminate T.
  - rewrite v_snoc in E. set (st := at_ q) in *.
    destruct (nth_error (vgos st) x) as [g0|] eqn:K.
    2:{ rewrite v_step_none in E by assumption. destruct (IH i g E) as [A B]. split; [|intros k t T; now apply text_more, B].
        intros T. destruct (A T) as (n & l & L & C & R). exists n, l. split; [assumption|]. split; [assumption|]. now apply read_more. }
    destruct (v_step_go st x g0 K) as (R & N & O). destruct (Nat.eq_dec i x) as [->|D].
    2:{ rewrite O in E by assumption. destruct (IH i g E) as [A B]. split; [|intros k t T; now apply text_more, B].
        intros T. destruct (A T) as (n & l & L & C & Rd). exists n, l. split; [assumption|]. split; [assumption|]. now apply read_more. }
    rewrite N in E. injection E as <-. destruct (IH x g0 K) as [A B]. unfold v_gstep. destruct (vcur g0) as [|o r] eqn:C.
    + destruct (vtodo g0) as [|c t] eqn:T; cbn [snd].
      * split; [rewrite C; intros []|]. intros k t X. now apply text_more, B.
      * split; [|intros k s X; now apply text_more, B]. cbn [vcur vcopy vtexts]. destruct c as [xs|]; [intros X; now destruct (set_no_text xs)|].
        intros _. exists 0, (fun j => j). split; [lia|]. split; [reflexivity|]. intros j J. lia.
    + assert (Wn : within q x (List.length (vtexts g0))). { exists g0. split; [exact K|]. rewrite C. split; [discriminate|reflexivity]. }
      assert (Ln : forall n, firstn (List.length q) (q ++ [n]) = q) by (intros n; rewrite firstn_app, firstn_all, Nat.sub_diag; cbn; apply app_nil_r).
      cbn [snd vact]. destruct (in_dec (fun a b : bool => bool_dec a b) true [existsb (fun o => match o with VText => true | _ => false end) (o :: r)]) as [HT|HT].
      * assert (HI : In VText (o :: r)). { destruct HT as [HT|[]]. apply existsb_exists in HT as (y & Y & Z). now destruct y. }
        destruct (A HI) as (n & l & L & Cs & Rd). destruct (Nat.eq_dec n 6) as [->|N6].
        -- injection Cs as -> ->. cbn [vact lcopy ltexts]. split; [intros []|]. cbn [vtexts]. intros k t X.
           destruct (Nat.lt_ge_cases k (List.length (vtexts g0))) as [Lt|Ge]; [rewrite nth_error_app1 in X by assumption; now apply text_more, B|].
           rewrite nth_error_app2 in X by assumption. destruct (k - List.length (vtexts g0)) as [|y] eqn:Y; [|destruct y; discriminate X]. injection X as <-.
           assert (k = List.length (vtexts g0)) as -> by lia. exists (fun j => if Nat.eqb j 6 then List.length q else l j), (vcopy g0). cbn [Nat.eqb].
           rewrite app_length. cbn [List.length]. split; [|split; [lia|]].
           ++ apply read_more. intros j J. destruct (Nat.eqb_spec j 6) as [->|_]; [lia|]. destruct (Rd j J) as (R1 & R2 & R3). split; [assumption|]. split; [|assumption].
              intros j' J'. destruct (Nat.eqb_spec j' 6) as [->|_]; [lia|]. now apply R2.
           ++ split; [|rewrite Ln; now split]. intros j J. destruct (Nat.eqb_spec j 6) as [->|_]; [lia|]. now destruct (Rd j J).
        -- assert (o = VRead n /\ r = skipn (S n) (vcall_ops VString)) as [-> Er].
           { split; [|now apply skipn_more with (o := o)]. do 6 (destruct n as [|n]; [now injection Cs|]). lia. }
           cbn [vact lm lcopy ltexts]. split; [|intros k t X; now apply text_more, B]. cbn [vcur vcopy vtexts]. intros _.
           exists (S n), (fun j => if Nat.eqb j n then List.length q else l j). split; [lia|]. split; [assumption|].
           intros j J. rewrite app_length. cbn [List.length]. destruct (Nat.eqb_spec j n) as [->|D].
           ++ rewrite Ln. split; [lia|]. split; [|split; [assumption|]].
              ** intros j' J'. destruct (Nat.eqb_spec j' n) as [->|_]; [lia|]. now destruct (Rd j' J').
              ** fold st. do 6 (destruct n as [|n]; [reflexivity|]). exact Logic.I.
           ++ assert (Jn : j < n) by lia. destruct (Rd j Jn) as (R1 & R2 & R3 & R4). rewrite firstn_snoc by lia. split; [lia|]. split; [|split; [assumption|]].
              ** intros j' J'. destruct (Nat.eqb_spec j' n) as [->|_]; [lia|]. now apply R2.
              ** clear - R4 Jn L D N6. do 6 (destruct n as [|n]; [do 6 (destruct j as [|j]; [first [exact R4 | lia]|]); exact Logic.I|]). exact R4.
      * assert (HN : ~ In VText (o :: r)). { intros X. apply HT. left. apply existsb_exists. exists VText. now split. }
        assert (Tx : ltexts (vact (MkVl (vmm st) (vcopy g0) (vtexts g0)) o) = vtexts g0) by (destruct o; try reflexivity; destruct HN; now left).
        fold (vact (MkVl (vmm st) (vcopy g0) (vtexts g0)) o). split; cbn [vcur vtexts].
        -- intros X. destruct HN. now right.
        -- rewrite Tx. intros k t X. now apply text_more, B.
Qed.
End Moments.
(* Each String returns the words of the URI at six moments during the call, one after the
   other, with the members that the list of attributes read has at a seventh. *)
Theorem C163_moments : forall u css q i g k t, let st n := sched (v_start u css) (firstn n q) in
  nth_error (vgos (sched (v_start u css) q)) i = Some g -> nth_error (vtexts g) k = Some t ->
  exists l : nat -> nat,
    (forall j j', j < j' <= 6 -> l j < l j') /\ l 6 < List.length q /\
    (* the goroutine is in a call, with as many texts returned as precede t *)
    (forall j, j <= 6 -> exists gj, nth_error (vgos (st (l j))) i = Some gj /\ vcur gj <> [] /\ List.length (vtexts gj) = k) /\
    t = uri_string (MkURI (u_dn (v_uri (st (l 0)))) (u_scope (v_uri (st (l 1))))
          (MkABTV (ab_kw (u_avbt (v_uri (st (l 2))))) (ab_pair (u_avbt (v_uri (st (l 3))))))
          (nth (c_at (v_cell (vmm (st (l 4))))) (v_stk (vmm (st (l 6)))) []) (u_filter (v_uri (st (l 5))))).
Proof.
  intros u css q i g k t st E T. destruct (moments_run u css q i g E) as [_ H]. destruct (H k t T) as (l & c & R & L & M & Wn & ->).
  exists l. split; [|split; [assumption|split]].
  - intros j j' [J J']. destruct (Nat.eq_dec j' 6) as [->|N]; [apply M; lia|]. destruct (R j') as (_ & X & _); [lia|]. now apply X.
  - intros j J. destruct (Nat.eq_dec j 6) as [->|N]; [exact Wn|]. destruct (R j) as (_ & _ & X & _); [lia|]. exact X.
  - unfold view. cbn [v_cell v_stk]. destruct (R 0) as (_ & _ & _ & R0); [lia|]. destruct (R 1) as (_ & _ & _ & R1); [lia|]. destruct (R 2) as (_ & _ & _ & R2); [lia|].
    destruct (R 3) as (_ & _ & _ & R3); [lia|]. destruct (R 4) as (_ & _ & _ & R4); [lia|]. destruct (R 5) as (_ & _ & _ & R5); [lia|].
    cbn [same_word] in *. rewrite R0, R1, R2, R3, R4, R5. reflexivity.
Qed.
Print Assumptions C163_moments.
