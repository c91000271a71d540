(* C121: the names AllDN, AnyDN, SelfDN and ParentDN. *)
From Coq Require Import String Ascii List PeanoNat NArith Bool Lia.
From Verif Require Import GoStr GoStrFacts MMisc MKw MLists SLists PLists TLists MHeap SHeap THeap MAlias SAlias.
Import ListNotations.
Open Scope string_scope.

Lemma prefix_has p : forall s, String.prefix p s = has_prefix p s.
Proof.
  induction p as [|a p IH]; intros [|b s]; cbn; try reflexivity. destruct (ascii_dec a b) as [->|N].
  - rewrite Ascii.eqb_refl. apply IH.
  - apply Ascii.eqb_neq in N. now rewrite N.
Qed.
Lemma schemed_chop t : "ldap:///" ++ chopDNPfx t = schemed t.
Proof.
  unfold schemed. rewrite prefix_has. destruct (has_prefix "ldap:///" t) eqn:E.
  - apply has_prefix_spec in E as [u ->]. f_equal; apply (chop_scheme u).
  - unfold chopDNPfx, LocalScheme. now rewrite E.
Qed.
Lemma empty_eqb t : (String.length t =? 0)%nat = (t =? "")%string.
Proof. now destruct t. Qed.

Lemma key_given (kws : list N) :
  match kws with k :: _ => if ((k =? BindGDN) || (k =? BindRDN))%N%bool then k else BindUDN | [] => BindUDN end = keyword_given kws.
Proof.
  destruct kws as [|k r]; [reflexivity|]. unfold keyword_given. destruct (N.eqb_spec k BindGDN) as [->|A]; [reflexivity|].
  now destruct (N.eqb_spec k BindRDN) as [->|B].
Qed.

(* the heap against the view: the first four cells are those of the aliases, and a
   variable points to one exactly when it is a copy of that alias *)
Definition agrees (s : @state dname) (v : view) : Prop :=
  wf s /\ (4 <= List.length (st_heap s))%nat /\
  (forall x i, (i < 4)%nat -> st_var s x = Some i <-> copy_of v x = Some i) /\
  (forall x i, copy_of v x = Some i -> (i < 4)%nat) /\
  (forall i, (i < 4)%nat -> exists t, rd (st_heap s) (Some i) = Some (MkDN (keyed v i) (Some t)) /\ "ldap:///" ++ t = prints v i).

Lemma agrees_boot : agrees boot fresh.
Proof.
  split; [apply wf_all; [apply ok_bdn|apply wf_start]|]. split; [cbn; lia|]. split; [|split].
  - intros x i L. do 4 (destruct x as [|x]; [cbn; tauto|]). cbn. split; discriminate.
  - intros x i. cbn [copy_of fresh]. destruct (Nat.ltb_spec x 4) as [L|L]; [intros [= <-]; exact L|discriminate].
  - intros i L. do 4 (destruct i as [|i]; [eexists; split; reflexivity|]). lia.
Qed.

(* Set on a variable: what the receiver, the result and the aliases are after it *)
Lemma set_alias s v x t kws h p q : agrees s v -> hcall o_bdn (st_heap s) (st_var s x) (t, kws) = (h, p, q) ->
  (List.length (st_heap s) <= List.length h)%nat /\ (forall l, p = Some l -> (l < List.length h)%nat) /\ (forall l, q = Some l -> (l < List.length h)%nat) /\
  (forall i, (i < 4)%nat -> p = Some i <-> copy_of v x = Some i) /\ (forall i, (i < 4)%nat -> q = Some i <-> copy_of v x = Some i) /\
  (forall i, (i < 4)%nat -> exists u, rd h (Some i) = Some (MkDN (rekeyed v x t kws i) (Some u)) /\ "ldap:///" ++ u = said v x t i).
Proof.
  intros (Ws & L4 & CP & C4 & PR) E. destruct (hcall_spec _ ok_bdn _ _ _ _ _ _ (Ws x) E) as (L & P & Q & R & _ & F & P2 & Q2 & KP).
  split; [exact L|]. split; [exact P|]. split; [exact Q|].
  destruct (copy_of v x) as [j|] eqn:C.
  - assert (J := C4 x j C). assert (X : st_var s x = Some j) by now apply CP. rewrite X in *. destruct (PR j J) as (u & EJ & TJ).
    assert (KE : o_keeps o_bdn (rd (st_heap s) (Some j)) (t, kws) = true) by (rewrite EJ; reflexivity).
    destruct (KP KE) as [-> ->]. split; [reflexivity|]. split; [reflexivity|].
    intros i I. unfold said, rekeyed. rewrite C. destruct (Nat.eqb_spec i j) as [->|N].
    + rewrite R. unfold after. rewrite EJ. cbn [o_keeps o_bdn o_ptr o_set dn_isZero negb orb fst snd]. unfold bdn_set, dname_set. cbn [dn_isZero]. rewrite empty_eqb.
      destruct (t =? "")%string eqn:T; [eexists; split; [reflexivity|exact TJ]|]. unfold newDistinguishedName. rewrite empty_eqb, T.
      rewrite Nat.eqb_refl. eexists. split; [|apply schemed_chop]. rewrite key_given. reflexivity.
    + rewrite (F i) by (lia || congruence). destruct (PR i I) as (u' & E1 & E2). exists u'.
      destruct (t =? "")%string; [now split|]. apply Nat.eqb_neq in N. rewrite N. now split.
  - assert (NX : forall i, (i < 4)%nat -> st_var s x <> Some i) by (intros i I X; apply CP in X; [congruence|exact I]).
    assert (NP : forall i, (i < 4)%nat -> p <> Some i) by (intros i I X; destruct P2 as [->|[-> _]]; [now apply (NX i)|injection X as X; lia]).
    split; [intros i I; split; [intros X; now destruct (NP i I)|discriminate]|].
    split.
    + intros i I. split; [|discriminate]. intros X. destruct Q2 as [->|[->|[-> _]]]; [now destruct (NP i I)|now destruct (NX i I)|injection X as X; lia].
    + intros i I. unfold said, rekeyed. rewrite C, (F i); [now apply PR|lia|]. intros _. now apply NX.
Qed.
Lemma agrees_step s v c : agrees s v -> agrees (exec o_bdn s c) (see v c).
Proof.
  intros A. assert (Ws := wf_exec _ ok_bdn s c (proj1 A)). assert (A' := A). destruct A as (_ & L4 & CP & C4 & PR).
  split; [exact Ws|]. destruct c as [x w|x y|x [t kws]|z x [t kws]]; cbn [exec see] in *.
  - destruct w as [w|]; cbn [alloc st_heap st_var copy_of prints] in *.
    + split; [rewrite app_length; lia|]. split; [|split].
      * intros y i I. unfold upd. destruct (y =? x)%nat; [split; [intros [= X]; lia|discriminate]|now apply CP].
      * intros y i. destruct (y =? x)%nat; [discriminate|now apply C4].
      * intros i I. destruct (PR i I) as (u & E1 & E2). exists u. split; [|exact E2]. rewrite rd_app by lia. exact E1.
    + split; [exact L4|]. split; [|split; [|exact PR]].
      * intros y i I. unfold upd. destruct (y =? x)%nat; [split; discriminate|now apply CP].
      * intros y i. destruct (y =? x)%nat; [discriminate|now apply C4].
  - cbn [st_heap st_var copy_of prints] in *. split; [exact L4|]. split; [|split; [|exact PR]].
    + intros w i I. unfold upd. destruct (w =? x)%nat; now apply CP.
    + intros w i. destruct (w =? x)%nat; now apply C4.
  - destruct (hcall o_bdn (st_heap s) (st_var s x) (t, kws)) as [[h p] q] eqn:E. destruct (set_alias _ _ _ _ _ _ _ _ A' E) as (L & _ & _ & P & _ & H).
    cbn [st_heap st_var copy_of prints] in *. split; [lia|]. split; [|split; [exact C4|exact H]].
    intros y i I. unfold upd. destruct (Nat.eqb_spec y x) as [->|N]; [now apply P|now apply CP].
  - destruct (hcall o_bdn (st_heap s) (st_var s x) (t, kws)) as [[h p] q] eqn:E. destruct (set_alias _ _ _ _ _ _ _ _ A' E) as (L & _ & _ & P & Q & H).
    cbn [st_heap st_var copy_of prints] in *. split; [lia|]. split; [|split; [|exact H]].
    + intros y i I. unfold upd. destruct (Nat.eqb_spec y z) as [->|N]; [now apply Q|]. destruct (Nat.eqb_spec y x) as [->|N2]; [now apply P|now apply CP].
    + intros y i. destruct (y =? z)%nat; now apply C4.
Qed.
Lemma agrees_all p : forall s v, agrees s v -> agrees (exec_all o_bdn s p) (fold_left see p v).
Proof. induction p as [|c p IH]; intros s v A; [exact A|]. apply (IH _ _ (agrees_step s v c A)). Qed.
Lemma agrees_shows s v x i : agrees s v -> copy_of v x = Some i -> shows s x = prints v i.
Proof.
  intros (_ & _ & CP & C4 & PR) C. assert (I := C4 x i C). destruct (PR i I) as (t & E & <-). apply CP in C; [|exact I].
  unfold shows, look. rewrite C, E. reflexivity.
Qed.

(* ---- C121 ---- *)
(* False: a program that never mentions the four variables on the left of an
   assignment, and calls no method of them, can still change what they are. *)
Theorem C121_refuted :
  ~ (forall p, leaves_alone p -> forall i, (i < 4)%nat -> shows (exec_all o_bdn boot p) i = alias_text i).
Proof.
  intros H. specialize (H [CCopy 4 AnyDN; CCall 4 ("cn=a", [])]). assert (L : leaves_alone [CCopy 4 AnyDN; CCall 4 ("cn=a", [])]).
  { intros c [<-|[<-|[]]]; lia. }
  specialize (H L 1%nat ltac:(lia)). vm_compute in H. discriminate H.
Qed.
(* Exactly: every variable that is a copy of an alias prints the text last given to
   Set on any copy of that alias, or the documented one when there was none, and has
   the keyword given with it, or userdn. *)
Theorem C121_exact : forall p x i, copy_of (seen p) x = Some i ->
  (i < 4)%nat /\ shows (exec_all o_bdn boot p) x = prints (seen p) i /\
  exists d, look (exec_all o_bdn boot p) x = Some d /\ dn_kw d = keyed (seen p) i.
Proof.
  intros p x i C. assert (A := agrees_all p boot fresh agrees_boot). fold (seen p) in A.
  assert (I : (i < 4)%nat) by (destruct A as (_ & _ & _ & C4 & _); now apply (C4 x)). split; [exact I|]. split; [now apply agrees_shows|].
  destruct A as (_ & _ & CP & _ & PR). destruct (PR i I) as (t & E & _). apply CP in C; [|exact I]. eexists. unfold look. rewrite C. split; [exact E|reflexivity].
Qed.
(* A variable that was never given a value prints the mark of a missing name. *)
Theorem C121_no_value : forall p x, (4 <= x)%nat ->
  (forall c, In c p -> match c with CNew y _ | CCopy y _ | CCall y _ => y <> x | CAssign z y _ => z <> x /\ y <> x end) ->
  look (exec_all o_bdn boot p) x = None /\ shows (exec_all o_bdn boot p) x = "<invalid_bind_distinguished_name>".
Proof.
  intros p x L H. assert (G : forall p s, st_var s x = None ->
    (forall c, In c p -> match c with CNew y _ | CCopy y _ | CCall y _ => y <> x | CAssign z y _ => z <> x /\ y <> x end) -> st_var (exec_all o_bdn s p) x = None).
  { clear. induction p as [|c p IH]; intros s S H; [exact S|]. unfold exec_all. cbn [fold_left]. apply IH; [|intros d D; apply H; now right].
    assert (N := H c (or_introl eq_refl)). destruct c as [y w|y z|y a|z y a]; cbn [exec].
    - destruct (alloc (st_heap s) w). cbn [st_var]. unfold upd. apply not_eq_sym, Nat.eqb_neq in N. now rewrite N.
    - cbn [st_var]. unfold upd. apply not_eq_sym, Nat.eqb_neq in N. now rewrite N.
    - destruct (hcall _ _ _ _) as [[h q] r]. cbn [st_var]. unfold upd. apply not_eq_sym, Nat.eqb_neq in N. now rewrite N.
    - destruct N as [N1 N2]. destruct (hcall _ _ _ _) as [[h q] r]. cbn [st_var]. unfold upd. apply not_eq_sym, Nat.eqb_neq in N1. apply not_eq_sym, Nat.eqb_neq in N2. now rewrite N1, N2. }
  assert (V : st_var (exec_all o_bdn boot p) x = None).
  { apply G; [|exact H]. do 4 (destruct x as [|x]; [lia|]). reflexivity. }
  unfold shows, look. rewrite V. split; reflexivity.
Qed.
Lemma not_assigned p i : forall v, copy_of v i = Some i ->
  (forall c, In c p -> match c with CNew x _ | CCopy x _ | CAssign x _ _ => x <> i | CCall _ _ => True end) -> copy_of (fold_left see p v) i = Some i.
Proof.
  induction p as [|c p IH]; intros v C H; [exact C|]. cbn [fold_left]. apply IH; [|intros d D; apply H; now right].
  assert (N := H c (or_introl eq_refl)). destruct c as [x w|x y|x [t kws]|z x [t kws]]; cbn [see copy_of] in *; [| |exact C|].
  - destruct (Nat.eqb_spec i x) as [->|N2]; [now destruct N|exact C].
  - destruct (Nat.eqb_spec i x) as [->|N2]; [now destruct N|exact C].
  - destruct (Nat.eqb_spec i z) as [->|N2]; [now destruct N|exact C].
Qed.
Theorem C121_variables : forall p i, (i < 4)%nat ->
  (forall c, In c p -> match c with CNew x _ | CCopy x _ | CAssign x _ _ => x <> i | CCall _ _ => True end) ->
  shows (exec_all o_bdn boot p) i = prints (seen p) i.
Proof.
  intros p i L H. refine (proj1 (proj2 (C121_exact _ _ _ _))). apply not_assigned; [|exact H]. cbn [copy_of fresh]. apply Nat.ltb_lt in L. now rewrite L.
Qed.
(* A member of a list that was pushed as a copy of an alias follows it. *)
Lemma nst_plain eqf kw p : forall s, n_st (nexec_all eqf kw s p) = exec_all o_bdn (n_st s) (plain p).
Proof.
  induction p as [|c p IH]; intros s; [reflexivity|]. change (nexec_all eqf kw s (c :: p)) with (nexec_all eqf kw (nexec eqf kw s c) p). rewrite IH.
  destruct c as [c|x]; [reflexivity|]. cbn [plain flat_map app nexec]. destruct (push_cast _ _ _); [|reflexivity]. now destruct (dn_policy _ _ _ _).
Qed.
Lemma nlist_grows eqf kw p : forall s, exists l, n_list (nexec_all eqf kw s p) = (n_list s ++ l)%list.
Proof.
  induction p as [|c p IH]; intros s; [exists []; now rewrite app_nil_r|]. change (nexec_all eqf kw s (c :: p)) with (nexec_all eqf kw (nexec eqf kw s c) p).
  destruct (IH (nexec eqf kw s c)) as [l ->]. destruct c as [c|x]; [now exists l|]. cbn [nexec]. destruct (push_cast _ _ _); [|now exists l].
  destruct (dn_policy _ _ _ _); [|now exists l]. cbn [n_list]. rewrite <- app_assoc. eexists. reflexivity.
Qed.
Theorem C121_members : forall eqf kw p x q i, copy_of (seen (plain p)) x = Some i ->
  let l := names (nexec_all eqf kw nboot p) in
  List.length (names (nexec_all eqf kw nboot (p ++ [NPush x])%list)) <> List.length l ->
  exists d, nth_error (names (nexec_all eqf kw nboot (p ++ NPush x :: q)%list)) (List.length l) = Some (MDN d) /\
            dn_string badBDN d = prints (seen (plain p ++ plain q)%list) i.
Proof.
  intros eqf kw p x q i C l N. unfold nexec_all in N. rewrite fold_left_app in N. cbn [fold_left] in N. fold (nexec_all eqf kw nboot p) in N.
  unfold nexec_all. rewrite fold_left_app. cbn [fold_left]. fold (nexec_all eqf kw nboot p). set (s := nexec_all eqf kw nboot p) in *.
  fold (nexec_all eqf kw (nexec eqf kw s (NPush x)) q). assert (SP : n_st s = exec_all o_bdn boot (plain p)) by apply nst_plain.
  assert (A := agrees_all (plain p) boot fresh agrees_boot). fold (seen (plain p)) in A.
  assert (B := agrees_all (plain q) _ _ A). rewrite <- SP in A.
  assert (I : (i < 4)%nat) by (destruct A as (_ & _ & _ & C4 & _); now apply (C4 x)). assert (X : st_var (n_st s) x = Some i) by (apply A; assumption).
  assert (NL : n_list (nexec eqf kw s (NPush x)) = (n_list s ++ [Some i])%list /\ n_st (nexec eqf kw s (NPush x)) = n_st s).
  { unfold l, names in N. rewrite !map_length in N. cbn [nexec] in *. destruct (push_cast _ _ _); [|now destruct N]. destruct (dn_policy _ _ _ _); [|now destruct N].
    cbn [n_list n_st]. now rewrite X. }
  destruct NL as [NL NS]. destruct (nlist_grows eqf kw q (nexec eqf kw s (NPush x))) as [m M]. rewrite NL in M.
  assert (SQ := nst_plain eqf kw q (nexec eqf kw s (NPush x))). rewrite NS, SP in SQ.
  unfold names at 1. rewrite M, SQ, !map_app. unfold l, names. rewrite nth_error_app1, nth_error_app2.
  - rewrite !map_length, Nat.sub_diag. cbn [map nth_error]. eexists. split; [reflexivity|].
    unfold seen at 1. rewrite fold_left_app. fold (seen (plain p)). destruct B as (_ & _ & _ & _ & PR). destruct (PR i I) as (t & E & <-). rewrite E. reflexivity.
  - rewrite !map_length. lia.
  - rewrite app_length, !map_length. cbn. lia.
Qed.
(* What holds: a program that gives the four variables no value and calls Set, with a
   text, on no copy of them finds them as documented, and texts are read as C28 tells. *)
Lemma careful_fresh p : forall v, (forall i, (i < 4)%nat -> copy_of v i = Some i /\ prints v i = alias_text i /\ keyed v i = BindUDN) -> careful_from v p ->
  forall i, (i < 4)%nat -> copy_of (fold_left see p v) i = Some i /\ prints (fold_left see p v) i = alias_text i /\ keyed (fold_left see p v) i = BindUDN.
Proof.
  induction p as [|c p IH]; intros v V C; [exact V|]. cbn [fold_left careful_from] in *. destruct C as [C1 C2]. apply IH; [|exact C2].
  intros i I. destruct (V i I) as (V1 & V2 & V3). assert (S : forall x t, copy_of v x = None \/ t = "" -> said v x t i = alias_text i /\ forall kws, rekeyed v x t kws i = BindUDN).
  { intros x t [N|T]; [|rewrite T]; unfold said, rekeyed; [now rewrite N|]. destruct (copy_of v x); (split; [exact V2|intros k0; exact V3]). }
  destruct c as [x w|x y|x [t kws]|z x [t kws]]; cbn [see copy_of prints keyed] in *.
  - destruct (Nat.eqb_spec i x) as [->|N]; [lia|now split].
  - destruct (Nat.eqb_spec i x) as [->|N]; [lia|now split].
  - split; [exact V1|split; now apply S].
  - destruct C1 as [C0 C1]. destruct (Nat.eqb_spec i z) as [->|N]; [lia|]. split; [exact V1|split; now apply S].
Qed.
Lemma fresh_ok i : (i < 4)%nat -> copy_of fresh i = Some i /\ prints fresh i = alias_text i /\ keyed fresh i = BindUDN.
Proof. intros I. cbn [copy_of prints keyed fresh]. apply Nat.ltb_lt in I. now rewrite I. Qed.
Theorem C121_partial : forall p, careful_from fresh p ->
  (forall i, (i < 4)%nat -> shows (exec_all o_bdn boot p) i = alias_text i /\
                            exists d, look (exec_all o_bdn boot p) i = Some d /\ dn_kw d = BindUDN) /\
  (forall eqf d, isInvalidDNSyntax_at eqf (exec_all o_bdn boot p) d = isInvalidDNSyntax eqf d).
Proof.
  intros p C. assert (K := careful_fresh p fresh fresh_ok C). fold (seen p) in K.
  assert (E : forall i, (i < 4)%nat -> shows (exec_all o_bdn boot p) i = alias_text i).
  { intros i I. destruct (K i I) as (K1 & <- & _). now apply C121_exact. }
  split; [intros i I; split; [now apply E|]; destruct (K i I) as (K1 & _ & <-); now apply C121_exact|]. intros eqf d. unfold isInvalidDNSyntax_at, isInvalidDNSyntax, isDNAlias_at, isDNAlias. cbn [existsb].
  unfold AllDN, AnyDN, SelfDN, ParentDN. rewrite !E by lia. reflexivity.
Qed.
(* Which texts are accepted, exactly, in any program that gives the four variables no
   value: those of C28 with what the aliases now print. *)
Theorem C121_check : forall p vals,
  (forall c, In c p -> match c with CNew x _ | CCopy x _ | CAssign x _ _ => (4 <= x)%nat | CCall _ _ => True end) ->
  values_accepted_at eqfold (exec_all o_bdn boot p) vals = true <->
  forall v, In v vals -> accepted_when (prints (seen p)) (chopDNPfx (condenseWHSP v)).
Proof.
  intros p vals H. assert (E : forall i, (i < 4)%nat -> shows (exec_all o_bdn boot p) i = prints (seen p) i).
  { intros i I. apply C121_variables; [exact I|]. intros c J. specialize (H c J). destruct c; lia || exact I. }
  unfold values_accepted_at. rewrite forallb_forall.
  assert (G : forall d, negb (isInvalidDNSyntax_at eqfold (exec_all o_bdn boot p) d) = true <-> accepted_when (prints (seen p)) d).
  { intros d. rewrite negb_true_iff. unfold isInvalidDNSyntax_at, accepted_when, contains_byte. rewrite orb_false_iff, Nat.ltb_ge, negb_false_iff, orb_true_iff.
    change (scontains "=" d) with (scontains (String "=" "") d). rewrite contains1, negb_true_iff.
    assert (Q : isDNAlias_at eqfold (exec_all o_bdn boot p) d = false <-> forall i, (i < 4)%nat -> eqfold d (prints (seen p) i) = false); [|rewrite Q; tauto].
    unfold isDNAlias_at. cbn [existsb]. unfold AllDN, AnyDN, SelfDN, ParentDN. rewrite !E, !orb_false_iff by lia. split.
    - intros (Q0 & Q1 & Q2 & Q3 & _) i I. do 4 (destruct i as [|i]; [assumption|]). lia.
    - intros Q. repeat split; apply Q; lia. }
  split; intros A v J; apply G, (A v J).
Qed.
Print Assumptions C121_refuted.
Print Assumptions C121_exact.
Print Assumptions C121_no_value.
Print Assumptions C121_variables.
Print Assumptions C121_members.
Print Assumptions C121_partial.
Print Assumptions C121_check.

Example C121_witness :
  let p := [CCopy 4 AnyDN; CNew 5 (UDN "cn=b"); CCall 5 ("cn=c", []); CAssign 6 4 ("cn=a", [])] in
  copy_of (seen p) 6 = Some 1%nat /\ shows (exec_all o_bdn boot p) 7 = "<invalid_bind_distinguished_name>" /\ keyed (seen [CCall 1%nat ("cn=a", [BindGDN])]) 1 = BindGDN /\ shows (exec_all o_bdn boot p) 1 = "ldap:///cn=a" /\ shows (exec_all o_bdn boot p) 5 = "ldap:///cn=c" /\
  shows (exec_all o_bdn boot p) 0 = "ldap:///all" /\ careful_from fresh (firstn 3 p) /\
  names (nexec_all eqfold BindUDN nboot [NPush 1; NDo (CCopy 4 AnyDN); NDo (CCall 4 ("cn=a", []))]) = [MDN (UDN "cn=a")].
Proof. split; [|split; [|split; [|split; [|split; [|split; [|split]]]]]]; try (vm_compute; reflexivity). cbn. repeat split; try lia. now left. Qed.
(* the texts that are read change with the aliases *)
Example C121_check_witness :
  values_accepted_at eqfold boot ["ldap:///ldap:///self"] = false /\
  values_accepted_at eqfold (exec_all o_bdn boot [CCopy 4 SelfDN; CCall 4 ("cn=a", [])]) ["ldap:///ldap:///self"] = true.
Proof. split; vm_compute; reflexivity. Qed.
