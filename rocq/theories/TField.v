(* Theorems for C128 (the exported fields of rules and object identifiers). *)
From Coq Require Import String Ascii List PeanoNat NArith ZArith Bool Lia.
From Verif Require Import GoStr GoStrFacts Shifty MMisc MAttr MKw MRights MLists MRule MConv MTree MAci MHeap TTree MField SField THeap TAci.
Import ListNotations.
Open Scope string_scope.

Lemma frun_wf W p : forall s s', rwf s -> frun W s p = Some s' -> rwf s'.
Proof.
  assert (PUT : forall s r f s', rwf s -> (forall c q, In c (r_cells s) -> fst (f c) = Some q -> (q < List.length (r_perms s))%nat) -> cell_put s r f = Some s' -> rwf s').
  { intros s r f s' (A & B & C & D) Q H. unfold cell_put in H. destruct (r_rvar s r) as [l|]; [|discriminate]. destruct (nth_error (r_cells s) l) as [c|] eqn:N; [|discriminate].
    injection H as <-. unfold rwf. cbn [r_perms r_cells r_pvar r_rvar r_list]. rewrite wr_len. repeat apply conj; try assumption.
    intros k q b E. apply wr_nth in E as [E|[-> E]]; [now apply (C k q b)|]. apply (Q c); [now apply nth_error_In in N|]. now rewrite <- E. }
  induction p as [|c p IH]; intros s s' Ws H; cbn [frun] in H; [now injection H as <-|].
  destruct (fexec W s c) as [s1|] eqn:E; [|discriminate]. apply (IH s1); [|exact H]. clear IH H.
  assert (In3 : forall c q, In c (r_cells s) -> fst c = Some q -> (q < List.length (r_perms s))%nat).
  { intros [q0 b] q I F. cbn in F. subst q0. apply In_nth_error in I as [l I]. destruct Ws as (_ & _ & C & _). now apply (C l q b). }
  destruct c as [c|r x|r b|x r]; cbn [fexec] in E.
  - injection E as <-. now apply rwf_exec.
  - apply (PUT s r _ s1 Ws) in E; [exact E|]. cbn. intros _ q _ Q. destruct Ws as (A & _). now apply (A x).
  - apply (PUT s r _ s1 Ws) in E; [exact E|]. cbn. exact In3.
  - destruct (rd (r_cells s) (r_rvar s r)) as [[q b]|] eqn:R; [|discriminate]. injection E as <-. assert (Ws' := Ws). destruct Ws' as (A & B & C & D).
    unfold rwf. cbn [r_perms r_cells r_pvar r_rvar r_list]. repeat apply conj; try assumption.
    intros y l. unfold upd. destruct (Nat.eqb y x); [|apply A]. intros ->. destruct (r_rvar s r) as [k|]; [|discriminate]. cbn [rd] in R. now apply (C k l b).
Qed.
(* A statement panics exactly when it selects P or B of a zero PermissionBindRule. *)
Theorem C128_panic_exact : forall W p s c, frun W rstart p = Some s ->
  fexec W s c = None <-> exists r, selects c = Some r /\ rlook s r = None.
Proof.
  intros W p s c R. unfold rlook, rule_at.
  assert (G : forall r f, cell_put s r f = None <-> rd (r_cells s) (r_rvar s r) = None).
  { intros r f. unfold cell_put. destruct (r_rvar s r) as [l|]; cbn [rd]; [|easy]. now destruct (nth_error (r_cells s) l). }
  assert (N : forall r, match rd (r_cells s) (r_rvar s r) with Some (q, b) => Some (MkPB (perm_of (rd (r_perms s) q)) b) | None => None end = None <-> rd (r_cells s) (r_rvar s r) = None).
  { intros r. now destruct (rd (r_cells s) (r_rvar s r)) as [[]|]. }
  destruct c as [c|r x|r b|x r]; cbn [fexec selects].
  - split; [easy|]. now intros (r & E & _).
  - rewrite G. split; [intros H; exists r; split; [easy|now apply N]|intros (r' & [= <-] & H); now apply N].
  - rewrite G. split; [intros H; exists r; split; [easy|now apply N]|intros (r' & [= <-] & H); now apply N].
  - split.
    + intros H. exists r. split; [easy|]. now destruct (rd (r_cells s) (r_rvar s r)) as [[]|].
    + intros (r' & [= <-] & H). now destruct (rd (r_cells s) (r_rvar s r)) as [[]|].
Qed.
(* An assignment to P or B changes that part of the rule under every name it has, in
   variables and in the list, and no other rule; x := r.P makes x the permission of r. *)
Theorem C128_fields_exact : forall W p s r s' q v, frun W rstart p = Some s -> rlook s r = Some v ->
  (forall x, fexec W s (FP r x) = Some s' ->
     rule_at s' q = if match q, r_rvar s r with Some a, Some b => (a =? b)%nat | _, _ => false end
                    then Some (MkPB (perm_of (rd (r_perms s) (r_pvar s x))) (pb_b v)) else rule_at s q) /\
  (forall b, fexec W s (FB r b) = Some s' ->
     rule_at s' q = if match q, r_rvar s r with Some a, Some b => (a =? b)%nat | _, _ => false end
                    then Some (MkPB (pb_p v) b) else rule_at s q) /\
  (forall x, fexec W s (FGet x r) = Some s' -> rule_at s' q = rule_at s q /\ perm_of (rd (r_perms s') (r_pvar s' x)) = pb_p v).
Proof.
  intros W p s r s' q v R V. unfold rlook, rule_at in V. destruct (r_rvar s r) as [l|] eqn:E; [|discriminate]. cbn [rd] in V.
  destruct (nth_error (r_cells s) l) as [[cp cb]|] eqn:N; [|discriminate]. injection V as <-. cbn [pb_p pb_b].
  assert (P : forall c, rule_at (MkR (r_perms s) (wr (r_cells s) l c) (r_pvar s) (r_rvar s) (r_list s)) q =
              if match q with Some a => (a =? l)%nat | None => false end then Some (MkPB (perm_of (rd (r_perms s) (fst c))) (snd c)) else rule_at s q).
  { intros c. unfold rule_at. cbn [r_cells r_perms]. destruct q as [k|]; [|reflexivity]. destruct (Nat.eqb_spec k l) as [->|D].
    - rewrite wr_same by (apply nth_error_Some; congruence). now destruct c.
    - now rewrite wr_other. }
  repeat split.
  - intros x H. cbn [fexec] in H. unfold cell_put in H. rewrite E, N in H. injection H as <-. rewrite P. cbn [fst snd]. reflexivity.
  - intros b H. cbn [fexec] in H. unfold cell_put in H. rewrite E, N in H. injection H as <-. rewrite P. cbn [fst snd]. reflexivity.
  - cbn [fexec] in H. rewrite E in H. cbn [rd] in H. rewrite N in H. injection H as <-. reflexivity.
  - cbn [fexec] in H. rewrite E in H. cbn [rd] in H. rewrite N in H. injection H as <-. cbn [r_perms r_pvar]. now rewrite upd_same.
Qed.

(* ---- lists of rules hold valid rules ---- *)
Definition sound (c : ptr * option bctx) : Prop := fst c <> None /\ snd c <> None.
Definition all_sound (s : rstate) : Prop := forall p, In p (r_list s) -> exists l c, p = Some l /\ nth_error (r_cells s) l = Some c /\ sound c.
Lemma sound_valid s p : rwf s -> (exists l c, p = Some l /\ nth_error (r_cells s) l = Some c /\ sound c) <-> pbr_valid (rule_at s p) = true.
Proof.
  intros (_ & _ & C & _). split.
  - intros (l & [q b] & -> & N & A & B). unfold rule_at. cbn [rd]. rewrite N. cbn [fst snd] in *. destruct q as [q|]; [|easy]. destruct b as [b|]; [|easy].
    destruct (rd_some (r_perms s) q (C l q _ N)) as [[d n] V]. rewrite V. reflexivity.
  - unfold rule_at. destruct p as [l|]; [|discriminate]. cbn [rd]. destruct (nth_error (r_cells s) l) as [[q b]|] eqn:N; [|discriminate]. intros H.
    exists l, (q, b). split; [reflexivity|]. split; [exact N|]. split; cbn [fst snd]; intros ->.
    + cbn [rd perm_of] in H. destruct b; discriminate H.
    + unfold pbr_valid in H. destruct (pbr_isZero _); [discriminate|]. cbn [pb_b] in H. rewrite andb_false_r in H. discriminate.
Qed.
Lemma kept_cells s s' : all_sound s -> r_list s' = r_list s ->
  (forall l c, nth_error (r_cells s) l = Some c -> sound c -> exists c', nth_error (r_cells s') l = Some c' /\ sound c') -> all_sound s'.
Proof. intros A L K p I. rewrite L in I. destruct (A p I) as (l & c & -> & N & S). destruct (K l c N S) as (c' & N' & S'). eauto. Qed.
Lemma fair_step W s c s' : rwf s -> all_sound s -> match c with FP _ x => r_pvar s x <> None | FB _ b => b <> None | _ => True end ->
  fexec W s c = Some s' -> all_sound s'.
Proof.
  intros Ws A F H.
  assert (APP : forall c0, forall l c, nth_error (r_cells s) l = Some c -> sound c -> exists c', nth_error (r_cells s ++ [c0])%list l = Some c' /\ sound c').
  { intros c0 l c1 N S. exists c1. split; [|exact S]. rewrite nth_error_app1; [exact N|]. apply nth_error_Some. congruence. }
  assert (WR : forall k f, (forall c, sound c -> sound (f c)) -> forall c0, nth_error (r_cells s) k = Some c0 -> forall l c, nth_error (r_cells s) l = Some c -> sound c -> exists c', nth_error (wr (r_cells s) k (f c0)) l = Some c' /\ sound c').
  { intros k f Sf c0 Nk l c1 N S. destruct (Nat.eq_dec l k) as [->|D].
    - rewrite N in Nk. injection Nk as <-. exists (f c1). split; [|now apply Sf]. apply (wr_same (r_cells s)). apply nth_error_Some. congruence.
    - exists c1. split; [|exact S]. rewrite <- N. exact (wr_other (r_cells s) k l (f c0) D). }
  assert (SET : forall r f, (forall c, sound c -> sound (f c)) -> all_sound (set_cell s r f)).
  { intros r f Sf. unfold set_cell. destruct (r_rvar s r) as [k|]; [destruct (pbr_isZero _)|].
    - eapply kept_cells; [exact A|reflexivity|]. cbn [r_cells]. apply APP.
    - destruct (nth_error (r_cells s) k) as [c0|] eqn:Nk; [|exact A]. eapply kept_cells; [exact A|reflexivity|]. cbn [r_cells]. now apply WR.
    - eapply kept_cells; [exact A|reflexivity|]. cbn [r_cells]. apply APP. }
  assert (SAME : forall s1, r_list s1 = r_list s -> r_cells s1 = r_cells s -> all_sound s1).
  { intros s1 L C. apply (kept_cells s s1 A L). rewrite C. eauto. }
  assert (PUT : forall r f, (forall c, sound c -> sound (f c)) -> cell_put s r f = Some s' -> all_sound s').
  { intros r f Sf E. unfold cell_put in E. destruct (r_rvar s r) as [k|]; [|discriminate]. destruct (nth_error (r_cells s) k) as [c0|] eqn:Nk; [|discriminate].
    injection E as <-. eapply kept_cells; [exact A|reflexivity|]. cbn [r_cells]. now apply WR. }
  destruct c as [c|r x|r b|x r]; cbn [fexec] in H.
  - injection H as <-. destruct c as [x d xs|x y|x on xs|r x b|r q|r x|r b|r]; cbn [rexec].
    + now apply SAME.
    + now apply SAME.
    + destruct (hcall (o_perm (sh W)) (r_perms s) (r_pvar s x) (on, xs)) as [[h p'] q]. now apply SAME.
    + destruct (pbr_valid _); [|now apply SAME]. eapply kept_cells; [exact A|reflexivity|]. cbn [r_cells]. apply APP.
    + now apply SAME.
    + apply SET. intros c [S1 S2]. destruct (perm_valid _) eqn:V; [|now split]. split; [|exact S2]. cbn. intros E. rewrite E in V. discriminate.
    + apply SET. intros c [S1 S2]. destruct (bctx_valid b); now split.
    + destruct (pbrs_policy W (map (rule_at s) (r_list s)) (rule_at s (r_rvar s r))) eqn:P; [|exact A]. intros p I. cbn [r_list r_cells] in *.
      apply in_app_or in I as [I|[<-|[]]]; [now apply A|]. apply sound_valid; [exact Ws|]. unfold pbrs_policy in P. now destruct (pbrs_contains _ _ _).
  - apply (PUT r _) in H; [exact H|]. intros c [S1 S2]. now split.
  - apply (PUT r _) in H; [exact H|]. intros c [S1 S2]. now split.
  - destruct (rd (r_cells s) (r_rvar s r)) as [[q b]|]; [|discriminate]. injection H as <-. now apply SAME.
Qed.
Theorem C128_rules : forall W p s, fair W rstart p -> frun W rstart p = Some s -> forall r, In r (rlist s) -> pbr_valid r = true.
Proof.
  intros W p s F R. assert (G : forall p s0 s, rwf s0 -> all_sound s0 -> fair W s0 p -> frun W s0 p = Some s -> rwf s /\ all_sound s).
  { clear. induction p as [|c p IH]; intros s0 s Ws A F R; cbn [frun fair] in *; [injection R as <-; now split|].
    destruct F as [F0 F]. destruct (fexec W s0 c) as [s1|] eqn:E; [|discriminate].
    apply (IH s1 s); try assumption; [|now apply (fair_step W s0 c s1)]. apply (frun_wf W [c] s0 s1 Ws). cbn [frun]. now rewrite E. }
  destruct (G p rstart s rwf_start) as [Ws A]; [intros q []|exact F|exact R|]. intros r I. unfold rlist in I. apply in_map_iff in I as (q & <- & I).
  apply sound_valid; [exact Ws|]. now apply A.
Qed.

(* ---- lists of object identifiers hold identifiers of their keyword ---- *)
Definition good_id (lkw : N) (o : option oid) : Prop := exists t, o = Some (MkOID lkw (Some t)) /\ lkw <> 0%N.
Theorem C128_ids : forall eqf dotnot lkw p s, (forall c, In c p -> id_fair lkw c) -> idrun eqf dotnot lkw idstart p = Some s ->
  forall o, In o (idlist s) -> oid_valid o = true /\ exists t, o = Some (MkOID lkw (Some t)).
Proof.
  intros eqf dotnot lkw p s F R.
  assert (G : forall p s0 s, (forall q, In q (id_list s0) -> good_id lkw (id_at s0 q)) -> (forall c, In c p -> id_fair lkw c) ->
              idrun eqf dotnot lkw s0 p = Some s -> forall q, In q (id_list s) -> good_id lkw (id_at s q)).
  { clear. induction p as [|c p IH]; intros s0 s A F R; cbn [idrun] in R; [injection R as <-; exact A|].
    destruct (idexec eqf dotnot lkw s0 c) as [s1|] eqn:E; [|discriminate]. apply (IH s1 s); [|intros c' I; apply F; now right|exact R].
    assert (F0 := F c (or_introl eq_refl)). clear IH F R.
    assert (PUT : forall x f, (forall o, good_id lkw (Some o) -> good_id lkw (Some (f o))) -> id_put s0 x f = Some s1 -> forall q, In q (id_list s1) -> good_id lkw (id_at s1 q)).
    { intros x f K H q I. unfold id_put in H. destruct (id_var s0 x) as [l|]; [|discriminate]. destruct (nth_error (id_cells s0) l) as [c0|] eqn:N; [|discriminate].
      injection H as <-. cbn [id_list] in I. assert (Q := A q I). unfold id_at in *. cbn [id_cells]. destruct q as [k|]; [|exact Q]. destruct (Nat.eq_dec k l) as [->|D].
      - rewrite wr_same by (apply nth_error_Some; congruence). apply K. cbn [rd] in Q. now rewrite N in Q.
      - now rewrite wr_other. }
    destruct c as [x kw t|x y|x k|x d|x]; cbn [idexec] in E.
    - destruct (mkOID dotnot kw t) as [o|]; injection E as <-; [|exact A]. intros q I. cbn [id_list] in I. assert (Q := A q I). unfold id_at in *. cbn [id_cells].
      destruct q as [k|]; [|exact Q]. cbn [rd] in *. rewrite nth_error_app1; [exact Q|]. destruct Q as (t0 & Q & _). apply nth_error_Some. congruence.
    - injection E as <-. exact A.
    - refine (PUT x _ _ E). cbn [id_fair] in F0. subst k. intros o (t & [= ->] & Z). exists t. now split.
    - refine (PUT x _ _ E). cbn [id_fair] in F0. intros o (t & [= ->] & Z). destruct d as [d|]; [|easy]. exists d. now split.
    - injection E as <-. destruct (oid_policy _ _ _ _) eqn:P; [|exact A]. intros q I. cbn [id_list] in I. apply in_app_or in I as [I|[<-|[]]]; [now apply A|].
      unfold id_at in *. cbn [id_cells]. unfold oid_policy in P. destruct (oid_contains _ _ _); [discriminate|]. apply andb_true_iff in P as [P1 P2].
      destruct (rd (id_cells s0) (id_var s0 x)) as [[k d]|]; [|discriminate]. cbn [oid_kw] in P2. apply N.eqb_eq in P2. subst k. destruct d as [d|]; [|discriminate].
      exists d. split; [reflexivity|]. cbn [oid_valid] in P1. now apply negb_true_iff, N.eqb_neq in P1. }
  intros o I. unfold idlist in I. apply in_map_iff in I as (q & <- & I). destruct (G p idstart s ltac:(intros q' []) F R q I) as (t & E & Z).
  rewrite E. split; [|eauto]. cbn [oid_valid]. now apply negb_true_iff, N.eqb_neq.
Qed.
(* What one assignment does to every identifier, wherever it is held. *)
Theorem C128_id_fields_exact : forall eqf dotnot lkw s x q,
  (forall k, match idexec eqf dotnot lkw s (IdKey x k), id_at s (id_var s x) with
   | Some s', Some o => id_at s' q = if match q, id_var s x with Some a, Some b => (a =? b)%nat | _, _ => false end then Some (MkOID k (oid_dot o)) else id_at s q
   | None, None => True
   | _, _ => False
   end) /\
  (forall d, match idexec eqf dotnot lkw s (IdDot x d), id_at s (id_var s x) with
   | Some s', Some o => id_at s' q = if match q, id_var s x with Some a, Some b => (a =? b)%nat | _, _ => false end then Some (MkOID (oid_kw o) d) else id_at s q
   | None, None => True
   | _, _ => False
   end).
Proof.
  intros eqf dotnot lkw s x q. cbn [idexec]. unfold id_put, id_at. destruct (id_var s x) as [l|]; [|now split]. cbn [rd].
  destruct (nth_error (id_cells s) l) as [c|] eqn:N; [|now split]. cbn [id_cells].
  assert (K : forall c', rd (wr (id_cells s) l c') q = if match q with Some a => (a =? l)%nat | None => false end then Some c' else rd (id_cells s) q).
  { intros c'. destruct q as [k|]; [|reflexivity]. destruct (Nat.eqb_spec k l) as [->|D]; [|now rewrite wr_other]. rewrite wr_same; [reflexivity|]. apply nth_error_Some. congruence. }
  split; intros; apply K.
Qed.

(* False without those conditions. *)
Theorem C128_refuted :
  (forall W, fexec W rstart (FB 0 None) = None) /\
  (exists s, frun W0 rstart [FDo (RPerm 0 true [MRights.AStr "read"]); FDo (RRule 0 0 (Some (BCRule (Some cB)))); FDo (RPush 0); FP 0 1] = Some s /\
     map pbr_valid (rlist s) = [false]) /\
  (forall eqf dotnot, dotnot "1.3.6" = Some "1.3.6" ->
     exists s, idrun eqf dotnot TargetCtrl idstart [IdMake 0 TargetCtrl "1.3.6"; IdPush 0; IdKey 0 TargetExtOp] = Some s /\
       idlist s = [Some (MkOID TargetExtOp (Some "1.3.6"))]).
Proof.
  split; [reflexivity|]. split; [eexists; split; vm_compute; reflexivity|]. intros eqf dotnot D. eexists. split.
  - cbn [idrun idexec idstart]. unfold mkOID, newObjectID. rewrite D. cbn. reflexivity.
  - reflexivity.
Qed.
Definition fields : list fcmd :=
  [FDo (RPerm 0 true [MRights.AStr "read"]); FDo (RPerm 1 false [MRights.AStr "write"]); FDo (RRule 0 0 (Some (BCRule (Some cB)))); FDo (RPush 0);
   FP 0 1; FB 0 (Some (BCRule (Some cA))); FGet 2 0; FDo (RRule 1 2 (Some (BCRule (Some cB)))); FDo (RPush 1)].
Example C128_witness :
  fair W0 rstart fields /\
  (exists s, frun W0 rstart fields = Some s /\ rlist s = [Some (MkPB (PSome false 2) (Some (BCRule (Some cA)))); Some (MkPB (PSome false 2) (Some (BCRule (Some cB))))]) /\
  (let p := [IdMake 0 TargetCtrl "1.3.6"; IdPush 0; IdKey 0 TargetCtrl; IdDot 0 (Some "1.3.7"); IdMake 1 TargetCtrl "1.3.6"; IdPush 1] in
   (forall c, In c p -> id_fair TargetCtrl c) /\
   exists s, idrun String.eqb (fun t => Some t) TargetCtrl idstart p = Some s /\ idlist s = [Some (MkOID TargetCtrl (Some "1.3.7")); Some (MkOID TargetCtrl (Some "1.3.6"))]).
Proof.
  split; [vm_compute; repeat split; discriminate|]. split; [eexists; split; vm_compute; reflexivity|]. split.
  - intros c H. cbn [In] in H. decompose [or] H; try contradiction; subst c; cbn [id_fair]; try exact I; try reflexivity; discriminate.
  - eexists. split; vm_compute; reflexivity.
Qed.
Print Assumptions C128_panic_exact.
Print Assumptions C128_fields_exact.
Print Assumptions C128_rules.
Print Assumptions C128_ids.
Print Assumptions C128_id_fields_exact.
Print Assumptions C128_refuted.
