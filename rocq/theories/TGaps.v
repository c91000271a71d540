(* Further theorems for C01, C81, C87, C103 and C111, found necessary by editing the model. *)
From Coq Require Import String Ascii List PeanoNat NArith ZArith Bool Lia.
From Verif Require Import GoStr Shifty MMisc MAttr MKw MRights SRights PRights MLists MRule MTree MMeth MConv MAci MInspect MView MHeap MShare
  SShare TShare THeap TAci TTree.
Import ListNotations.
Open Scope string_scope.

(* ---- C01: no right at all.  Positive of none (the word in any letter case, the
   constant or the number zero) is true when no right is granted ---- *)
Definition asks_none (x : rarg) : Prop :=
  match x with MRights.AInt z => z = 0%Z | MRights.ARight n => n = 0%N | MRights.AStr s => lc s = "none" | MRights.AOther => False end.
Theorem C01_none : forall sh, shifty_ok sh -> forall disp init h x,
  calls_ok arg_named (CShift init :: h) -> asks_none x -> (forall r, granted false (CShift init :: h) r = false) ->
  perm_positive sh (perm_run sh (newPermission sh disp init) h) x = true.
Proof.
  intros sh OK disp init h x H X G.
  change (perm_run sh (newPermission sh disp init) h) with (perm_run sh (PSome disp 0%N) (CShift init :: h)).
  destruct (named_run_lt sh OK (CShift init :: h) disp 0%N) as (v & A & B); [reflexivity|exact H|].
  assert (V : v = 0%N).
  { apply bits_set_inj; [exact B|reflexivity|]. intros r. destruct (run_bit sh OK (CShift init :: h) disp 0%N r) as (v' & A' & _ & C);
      [reflexivity|apply calls_named_covered, H|].
    rewrite A' in A. injection A as ->. unfold bits_set. rewrite C, N.bits_0. apply G. }
  rewrite A, V. cbn [perm_positive]. destruct x as [z|n|s|]; cbn [asks_none] in X; try contradiction; cbn [positive_bits].
  - now rewrite X.
  - now rewrite X.
  - now rewrite X, rightsNames_none.
Qed.
Print Assumptions C01_none.
Example C01_none_witness :
  calls_ok arg_named (CShift [MRights.AStr "READ"] :: [CUnshift [MRights.AStr "Read"]]) /\ asks_none (MRights.AStr "None") /\
  (forall r, granted false (CShift [MRights.AStr "READ"] :: [CUnshift [MRights.AStr "Read"]]) r = false) /\
  perm_positive shifty_ref (perm_run shifty_ref (newPermission shifty_ref true [MRights.AStr "READ"]) [CUnshift [MRights.AStr "Read"]]) (MRights.AStr "None") = true /\
  perm_positive shifty_ref (newPermission shifty_ref true [MRights.AStr "READ"]) (MRights.ARight (right_const Read)) = true.
Proof.
  repeat apply conj.
  - intros c x Hc Hx. cbn [In] in Hc. repeat destruct Hc as [<-|Hc]; try contradiction; cbn [call_args In] in Hx;
    repeat destruct Hx as [<-|Hx]; try contradiction; vm_compute; discriminate.
  - reflexivity.
  - now intros [].
  - reflexivity.
  - reflexivity.
Qed.

(* ---- C81: a distinguished name of another type asked of a list.  A bind list looks for
   its text; a target list takes it for no name at all ---- *)
Theorem C81_foreign : forall eqf bad kw l k s,
  (dn_Contains eqf bad true kw l (DCForeign (Some (MkDN k (Some s)))) = true <->
   exists m, In m l /\ eqf (dmember_string bad m) ("ldap:///" ++ s) = true) /\
  (forall d, dn_Contains eqf bad false kw l (DCForeign d) = true <-> exists m, In m l /\ eqf (dmember_string bad m) "" = true).
Proof.
  intros eqf bad kw l k s.
  assert (G : forall u x, dn_Contains eqf bad u kw l x = true <-> exists m, In m l /\ eqf (dmember_string bad m) (dn_candidate bad u kw x) = true).
  { intros u x. unfold dn_Contains. destruct l as [|m l]; [split; [discriminate|now intros (m & [] & _)]|]. apply existsb_exists. }
  split; [apply G|]. intros d. apply G.
Qed.
Print Assumptions C81_foreign.
Example C81_foreign_witness :
  dn_Contains eqfold badBDN true BindUDN [MDN (UDN "uid=a"); MDN (UDN "uid=b")] (DCForeign (Some (MkDN Target (Some "UID=B")))) = true /\
  dn_Contains eqfold badBDN true BindUDN [MDN (UDN "uid=a")] (DCForeign (Some (MkDN Target (Some "uid=c")))) = false.
Proof. split; vm_compute; reflexivity. Qed.

(* ---- C111: IsParen of every kind of context ---- *)
Theorem C111_paren : forall b,
  bc_isParen b = true <->
  (exists c, b = BCRule (Some c) /\ c_paren c = true) \/ (exists w n f m, b = BCStack (Some (Stk w true n f m))).
Proof.
  intros b. split.
  - destruct b as [[c|]|[[]|]]; cbn [bc_isParen]; try discriminate; intros H; [left; now exists c|right; subst; repeat eexists].
  - intros [(c & -> & H)|(w & n & f & m & ->)]; [exact H|reflexivity].
Qed.
Print Assumptions C111_paren.
Theorem C111_paren_zero : bc_isParen (BCRule None) = false /\ bc_isParen (BCStack None) = false.
Proof. split; reflexivity. Qed.

(* ---- C87: Set of a permission-bind rule ---- *)
Lemma reached W p : rwf (rexec_all W rstart p).
Proof.
  assert (G : forall p s, rwf s -> rwf (rexec_all W s p)); [|apply G, rwf_start]. clear. induction p as [|c p IH]; intros s Ws; [exact Ws|].
  change (rexec_all W s (c :: p)) with (rexec_all W (rexec W s c) p). apply IH. now apply rwf_exec.
Qed.
Lemma set_cell_look s r f : rwf s ->
  rlook (set_cell s r f) r =
    (let '(q, b) := f (match rd (r_cells s) (r_rvar s r) with Some c => if pbr_isZero (rlook s r) then (None, None) else c | None => (None, None) end) in
     Some (MkPB (perm_of (rd (r_perms s) q)) b)) /\
  (forall ptr, In ptr (r_list s) \/ (exists x, ptr = r_rvar s x) -> ptr <> r_rvar s r \/ pbr_isZero (rlook s r) = true -> rule_at (set_cell s r f) ptr = rule_at s ptr).
Proof.
  intros (_ & A2 & _ & A4). unfold rlook, set_cell.
  assert (OLD : forall c ptr, In ptr (r_list s) \/ (exists x, ptr = r_rvar s x) ->
    rule_at (MkR (r_perms s) (r_cells s ++ [c])%list (r_pvar s) (upd (r_rvar s) r (Some (List.length (r_cells s)))) (r_list s)) ptr = rule_at s ptr).
  { intros c [l|] H; [|reflexivity]. unfold rule_at. cbn [r_cells r_perms rd]. rewrite nth_error_app1; [reflexivity|].
    destruct H as [H|[x H]]; [now apply A4|apply (A2 x); now symmetry]. }
  assert (NEW : forall c, rule_at (MkR (r_perms s) (r_cells s ++ [c])%list (r_pvar s) (upd (r_rvar s) r (Some (List.length (r_cells s)))) (r_list s))
    (upd (r_rvar s) r (Some (List.length (r_cells s))) r) = let '(q, b) := c in Some (MkPB (perm_of (rd (r_perms s) q)) b)).
  { intros [q b]. rewrite upd_same. unfold rule_at. cbn [r_cells r_perms rd]. rewrite nth_error_app2, Nat.sub_diag by lia. reflexivity. }
  destruct (r_rvar s r) as [l|] eqn:R.
  2:{ cbn [rd r_rvar]. split; [apply NEW|]. intros ptr H _. now apply OLD. }
  destruct (rd_some (r_cells s) l (A2 r l R)) as [c E]. destruct (pbr_isZero (rule_at s (Some l))) eqn:Z.
  { cbn [r_rvar]. rewrite E. split; [apply NEW|]. intros ptr H _. now apply OLD. }
  assert (E' : nth_error (r_cells s) l = Some c) by exact E. rewrite E', E. cbn [r_rvar]. rewrite R. split.
  - unfold rule_at. cbn [r_cells r_perms rd]. rewrite TShare.wr_same by (apply nth_lt in E'; exact E'). destruct (f c). reflexivity.
  - intros ptr H [N|N]; [|discriminate N]. destruct ptr as [k|]; [|reflexivity]. unfold rule_at. cbn [r_cells r_perms rd]. rewrite TShare.wr_other; [reflexivity|]. congruence.
Qed.
(* what Set with a bind rule does: the rights stay, the bind rule is the one given, if
   that is valid; Set with a permission: the other way round *)
Definition given_bind (r : pbr) (b : bctx) : pbr :=
  Some (MkPB (match r with Some x => pb_p x | None => PNil end)
             (if bctx_valid b then Some b else match r with Some x => pb_b x | None => None end)).
Definition given_permission (r : pbr) (p : permission) : pbr :=
  Some (MkPB (if perm_valid p then p else match r with Some x => pb_p x | None => PNil end)
             (match r with Some x => pb_b x | None => None end)).
Theorem C87_set : forall W p r, let s := rexec_all W rstart p in
  (forall b, rlook (rexec W s (RSetB r b)) r = given_bind (rlook s r) b) /\
  (forall x, rlook (rexec W s (RSetP r x)) r = given_permission (rlook s r) (perm_of (rd (r_perms s) (r_pvar s x)))) /\
  (* other variables and the members of the list, unless they are the same rule *)
  (forall c ptr, c = RSetP r ptr \/ (exists b, c = RSetB r b) -> forall q, In q (r_list s) \/ (exists y, q = r_rvar s y) ->
     q <> r_rvar s r \/ pbr_isZero (rlook s r) = true -> rule_at (rexec W s c) q = rule_at s q).
Proof.
  intros W p r s. assert (Ws : rwf s) by apply reached.
  assert (CELL : forall c, (match rd (r_cells s) (r_rvar s r) with Some c => if pbr_isZero (rlook s r) then (None, None) else c | None => (None, None) end) = c ->
    perm_of (rd (r_perms s) (fst c)) = match rlook s r with Some x => pb_p x | None => PNil end /\ snd c = match rlook s r with Some x => pb_b x | None => None end).
  { intros c <-. unfold rlook, rule_at. destruct (rd (r_cells s) (r_rvar s r)) as [[q b]|]; [|now split].
    cbn [pbr_isZero pb_p pb_b]. destruct (perm_of (rd (r_perms s) q)) as [|d v] eqn:P; destruct b as [b|]; cbn [perm_is_zero andb fst snd]; rewrite ?P; now split. }
  repeat apply conj.
  - intros b. cbn [rexec]. rewrite (proj1 (set_cell_look s r _ Ws)). destruct (CELL _ eq_refl) as [A B].
    set (c := match rd (r_cells s) (r_rvar s r) with Some c => _ | None => _ end) in *. unfold given_bind. destruct (bctx_valid b).
    + destruct c as [q b']. cbn [fst snd] in *. now rewrite A.
    + destruct c as [q b']. cbn [fst snd] in A, B. now rewrite A, B.
  - intros x. cbn [rexec]. rewrite (proj1 (set_cell_look s r _ Ws)). destruct (CELL _ eq_refl) as [A B].
    set (c := match rd (r_cells s) (r_rvar s r) with Some c => _ | None => _ end) in *. unfold given_permission. destruct (perm_valid _).
    + destruct c as [q b']. cbn [fst snd] in *. now rewrite B.
    + destruct c as [q b']. cbn [fst snd] in A, B. now rewrite A, B.
  - intros c x [->|[b ->]] q H N; cbn [rexec]; now apply (proj2 (set_cell_look s r _ Ws)).
Qed.
Print Assumptions C87_set.
Example C87_set_witness :
  let s := rexec_all W0 rstart [RPerm 0 true [MRights.AStr "read"]; RPerm 1 false [MRights.AStr "write"]; RRule 0 0 (Some (BCRule (Some cB)))] in
  bctx_valid (BCRule (Some (with_kw cB "groupdn"))) = true /\
  rlook (rexec W0 s (RSetB 0 (BCRule (Some (with_kw cB "groupdn"))))) 0 = Some (MkPB (PSome true 1) (Some (BCRule (Some (with_kw cB "groupdn"))))) /\
  rlook (rexec W0 s (RSetP 0 1)) 0 = Some (MkPB (PSome false 2) (Some (BCRule (Some cB)))).
Proof. repeat apply conj; vm_compute; reflexivity. Qed.

(* ---- C103: SetExpression with a value that is no list: the rule shows that value
   from then on, with its other parts as they were, until a method of the rule is called ---- *)
Section Value.
Variable eqf : string -> string -> bool.
Variable dotnot : string -> option string.
Variable pad : bool.
Local Notation run := (s_run eqf dotnot pad).
Local Notation step := (s_step eqf dotnot pad).
Theorem C103_value : forall p r n cell c e, let s := run s_start p in
  s_rvar s r = Some n -> nth_error (s_rules s) n = Some cell -> rule_of s r = Some c ->
  (rc_target cell = false -> rule_of (step s (SCall r (RBind (BExpression (Some e))))) r = Some (MkCond (c_kw c) (c_op c) (Some e) (c_quoted c) (c_paren c) (c_pad c))) /\
  (rc_target cell = true -> rule_of (step s (SCall r (RTarget (TExpression (Some e))))) r = Some (MkCond (c_kw c) (c_op c) (Some e) true (c_paren c) (c_pad c))).
Proof.
  intros p r n cell c e s R E C. unfold rule_of in C. rewrite R, E in C. unfold rule_now in C. injection C as C.
  assert (L := nth_lt _ _ _ E).
  split; intros T; cbn [s_step]; unfold rule_call; rewrite R, E, T; cbn [rcall_target Bool.eqb negb rcall_step br_step tr_step rcall_expr].
  - unfold br_set_expression, on_cond, rule_now, rule_of, with_rule. cbn [s_rvar s_rules s_lists rex_of]. rewrite R, TShare.wr_same by exact L. rewrite C. now destruct c.
  - unfold tr_set_expression, br_init, on_cond, rule_now, rule_of, with_rule. cbn [s_rvar s_rules s_lists rex_of]. rewrite R, TShare.wr_same by exact L. rewrite C. now destruct c.
Qed.
End Value.
Print Assumptions C103_value.
Example C103_value_witness :
  let run := s_run eqfold (fun s => Some s) true in
  let s := run s_start [SList 0 (CBindDNs BindUDN [MDN (UDN "uid=a"); MDN (UDN "uid=b")]); SMake 0 0 Eq] in
  s_rvar s 0 <> None /\ rule_text s 0 = "userdn = ""ldap:///uid=a || ldap:///uid=b""" /\
  rule_text (s_step eqfold (fun s => Some s) true s (SCall 0 (RBind (BExpression (Some (XText "ldap:///anyone")))))) 0 = "userdn = ""ldap:///anyone""".
Proof. repeat apply conj; [discriminate|vm_compute; reflexivity|vm_compute; reflexivity]. Qed.
