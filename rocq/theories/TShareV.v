(* C106: rules hold the values they were made from. *)
From Coq Require Import String Ascii List PeanoNat NArith ZArith Bool Lia.
From Verif Require Import GoStr GoStrFacts Shifty MMisc MAttr MKw MRights MLevels MLists MSec MNet MTime MFilter MUri MRule MMeth PRights MHeap SHeap THeap MShare.
Import ListNotations.
Open Scope string_scope.

(* the method makes rules whose value is the text of the receiver *)
Definition says {T} (txt : option T -> string) (f : option T -> rule) : Prop :=
  forall v c, f v = Some c -> c_ex c = Some (XText (txt v)).
Definition assigns {T A} (r : nat) (c : @vcmd T A) : Prop :=
  match c with VDo _ => False | VMake q _ _ => q = r | VCopy q _ => q = r end.

Section Obj.
Context {T A : Type}.
Variable O : obj T A.
Variable txt : option T -> string.
Hypothesis OK : obj_ok O.

Definition vwf (s : @vst T) : Prop :=
  wf (v_st s) /\ forall r c p l, v_rule s r = Some (c, p) -> p = Some l -> (l < List.length (st_heap (v_st s)))%nat.
Lemma vwf_start : vwf vstart.
Proof. split; [apply wf_start|]. discriminate. Qed.
Lemma vwf_exec : forall s c, vwf s -> vwf (vexec O s c).
Proof.
  intros s c [W R]. destruct c as [c|r x f|r q]; cbn [vexec].
  - split; cbn [v_st v_rule]; [now apply wf_exec|]. intros r c0 p l E P. pose proof (R r c0 p l E P). pose proof (heap_grows O OK (v_st s) c W). lia.
  - split; cbn [v_st v_rule]; [exact W|]. intros q c0 p l. destruct (Nat.eq_dec q r) as [->|N].
    + rewrite upd_same. destruct (f _) as [c|]; [|discriminate]. intros H P. injection H as _ <-. now apply (W x).
    + rewrite upd_other by exact N. apply R.
  - split; cbn [v_st v_rule]; [exact W|]. intros z c0 p l. destruct (Nat.eq_dec z r) as [->|N]; [rewrite upd_same|rewrite upd_other by exact N]; apply R.
Qed.
Lemma vwf_run : forall p s, vwf s -> vwf (vrun O s p).
Proof. induction p as [|c p IH]; intros s W; [exact W|]. apply IH. now apply vwf_exec. Qed.

(* when it is made, the rule says what the value says *)
Lemma made : forall s r x f, says txt f -> vlook txt (vexec O s (VMake r x f)) r = f (look (v_st s) x).
Proof.
  intros s r x f F. cbn [vexec]. unfold vlook. cbn [v_rule v_st]. rewrite upd_same. destruct (f (look (v_st s) x)) as [c|] eqn:E; [|reflexivity].
  apply F in E. unfold look in E. rewrite <- E. now destruct c.
Qed.
(* a call changes the rules that hold the receiver's value, if it writes in place, and no others *)
Lemma one_call : forall s r c p x a, vwf s -> v_rule s r = Some (c, p) ->
  let s' := vexec O s (VDo (CCall x a)) in
  (p <> None -> p = st_var (v_st s) x -> o_keeps O (look (v_st s) x) a = true ->
     vlook txt s' r = Some (with_ex c (Some (XText (txt (look (v_st s') x))))) /\ look (v_st s') x = o_set O (look (v_st s) x) a) /\
  (p = None \/ p <> st_var (v_st s) x \/ o_keeps O (look (v_st s) x) a = false -> vlook txt s' r = vlook txt s r).
Proof.
  intros s r c p x a [W R] E s'. subst s'. cbn [vexec exec]. destruct (hcall O (st_heap (v_st s)) (st_var (v_st s) x) a) as [[h p'] q] eqn:H.
  destruct (hcall_spec O OK _ _ _ _ _ _ (W x) H) as (_ & _ & _ & RD & RQ & F & _ & _ & KP). unfold vlook, look in *. cbn [v_rule v_st st_heap st_var] in *. rewrite E. split.
  - intros PN PX K. rewrite upd_same. destruct (KP K) as [-> ->]. subst p. split; [reflexivity|]. rewrite RD. unfold after.
    destruct (st_var (v_st s) x) as [l|] eqn:X; [|now elim PN]. destruct (rd_some (st_heap (v_st s)) l (W x l X)) as [d D].
    rewrite D in *. now rewrite K.
  - intros C. destruct p as [l|]; [|reflexivity]. rewrite F; [reflexivity|now apply (R r c (Some l))|]. intros K PX. destruct C as [C|[C|C]]; congruence.
Qed.

Theorem C106_call : forall prog r c p x a, let s := vrun O vstart prog in v_rule s r = Some (c, p) ->
  let s' := vexec O s (VDo (CCall x a)) in
  (p <> None -> p = st_var (v_st s) x -> o_keeps O (look (v_st s) x) a = true ->
     vlook txt s' r = Some (with_ex c (Some (XText (txt (look (v_st s') x))))) /\ look (v_st s') x = o_set O (look (v_st s) x) a) /\
  (p = None \/ p <> st_var (v_st s) x \/ o_keeps O (look (v_st s) x) a = false -> vlook txt s' r = vlook txt s r).
Proof. intros prog r c p x a s. apply one_call. apply vwf_run, vwf_start. Qed.

(* statements that keep the pointer of a rule and of a variable *)
Definition leaves (r x : nat) (c : @vcmd T A) : Prop :=
  ~ assigns r c /\ match c with VDo c => ~ retargets x c | _ => True end.
Lemma leaves_run : (forall c a, o_keeps O (Some c) a = true) -> forall q s r x c l, vwf s -> (forall d, In d q -> leaves r x d) ->
  v_rule s r = Some (c, Some l) -> st_var (v_st s) x = Some l ->
  v_rule (vrun O s q) r = Some (c, Some l) /\ st_var (v_st (vrun O s q)) x = Some l.
Proof.
  intros KK. induction q as [|d q IH]; intros s r x c l W L E X; [now split|]. cbn [vrun fold_left].
  destruct (L d (or_introl eq_refl)) as [LA LR]. apply IH; [now apply vwf_exec|intros e I; apply L; now right| |].
  - destruct d as [d|z y f|z y]; cbn [vexec v_rule assigns] in *; [exact E|rewrite upd_other by congruence; exact E|rewrite upd_other by congruence; exact E].
  - destruct d as [d|z y f|z y]; cbn [vexec v_st] in *; try exact X. destruct W as [W _].
    destruct d as [z w|z w|z a|z w a]; cbn [retargets exec] in *.
    + destruct w; cbn [alloc st_var]; rewrite upd_other by congruence; exact X.
    + cbn [st_var]. rewrite upd_other by congruence. exact X.
    + destruct (hcall O (st_heap (v_st s)) (st_var (v_st s) z) a) as [[h p'] u] eqn:H. cbn [st_var].
      destruct (Nat.eq_dec x z) as [<-|N]; [|now rewrite upd_other]. rewrite upd_same.
      destruct (hcall_spec O OK _ _ _ _ _ _ (W x) H) as (_ & _ & _ & _ & _ & _ & _ & _ & KP). rewrite X in *. destruct (rd_some (st_heap (v_st s)) l (W x l X)) as [k D]. rewrite D in KP.
      now destruct (KP (KK k a)) as [-> _].
    + destruct (hcall O (st_heap (v_st s)) (st_var (v_st s) w) a) as [[h p'] u] eqn:H. cbn [st_var]. rewrite upd_other by congruence.
      destruct (Nat.eq_dec x w) as [<-|N]; [|now rewrite upd_other]. rewrite upd_same.
      destruct (hcall_spec O OK _ _ _ _ _ _ (W x) H) as (_ & _ & _ & _ & _ & _ & _ & _ & KP). rewrite X in *. destruct (rd_some (st_heap (v_st s)) l (W x l X)) as [k D]. rewrite D in KP.
      now destruct (KP (KK k a)) as [-> _].
Qed.
(* of a type whose methods always write in place: the rule says at every later moment
   what the variable says at that moment *)
Lemma follows : (forall c a, o_keeps O (Some c) a = true) -> forall prog q r x f c, let s := vrun O vstart prog in
  look (v_st s) x <> None -> f (look (v_st s) x) = Some c -> (forall d, In d q -> leaves r x d) ->
  let s' := vrun O s (VMake r x f :: q) in
  vlook txt s' r = Some (with_ex c (Some (XText (txt (look (v_st s') x))))).
Proof.
  intros KK prog q r x f c s LX F L s'. assert (W : vwf s) by (apply vwf_run, vwf_start). subst s'. cbn [vrun fold_left].
  set (s1 := vexec O s (VMake r x f)). assert (W1 : vwf s1) by (apply (vwf_exec s (VMake r x f)); exact W).
  destruct (st_var (v_st s) x) as [l|] eqn:X; [|unfold look in LX; rewrite X in LX; now elim LX].
  assert (E : v_rule s1 r = Some (c, Some l)) by (unfold s1; cbn [vexec v_rule]; rewrite upd_same, F, X; reflexivity).
  destruct (leaves_run KK q s1 r x c l W1 L E X) as [A1 A2]. fold (vrun O s1 q). unfold vlook, look. now rewrite A1, A2.
Qed.
(* of a type whose methods never write in place: the rule stays what it was *)
Lemma kept : (forall v a, o_keeps O v a = false) -> forall prog q r, (forall d, In d q -> ~ assigns r d) ->
  vlook txt (vrun O vstart (prog ++ q)%list) r = vlook txt (vrun O vstart prog) r.
Proof.
  intros K prog q r N. unfold vrun. rewrite fold_left_app. fold (vrun O vstart prog).
  assert (W : vwf (vrun O vstart prog)) by (apply vwf_run, vwf_start). revert W N. generalize (vrun O vstart prog).
  induction q as [|d q IH]; intros s W N; [reflexivity|]. cbn [fold_left]. rewrite IH; [|now apply vwf_exec|intros e I; apply N; now right].
  pose proof (N d (or_introl eq_refl)) as ND. destruct W as [W R]. unfold vlook. destruct d as [d|z y f|z y]; cbn [vexec v_rule v_st assigns] in *;
  [|rewrite upd_other by congruence; reflexivity|rewrite upd_other by congruence; reflexivity].
  destruct (v_rule s r) as [[c p]|] eqn:E; [|reflexivity]. destruct p as [l|]; [|reflexivity]. pose proof (R r c (Some l) l E eq_refl) as L.
  destruct d as [z w|z w|z a|z w a]; cbn [exec].
  - destruct w; cbn [alloc st_heap]; [|reflexivity]. now rewrite rd_app.
  - reflexivity.
  - destruct (hcall O (st_heap (v_st s)) (st_var (v_st s) z) a) as [[h p'] u] eqn:H. destruct (hcall_spec O OK _ _ _ _ _ _ (W z) H) as (_ & _ & _ & _ & _ & F & _).
    cbn [st_heap]. rewrite F; trivial. rewrite K. discriminate.
  - destruct (hcall O (st_heap (v_st s)) (st_var (v_st s) w) a) as [[h p'] u] eqn:H. destruct (hcall_spec O OK _ _ _ _ _ _ (W w) H) as (_ & _ & _ & _ & _ & F & _).
    cbn [st_heap]. rewrite F; trivial. rewrite K. discriminate.
Qed.
End Obj.

(* ---- C106 ---- *)
(* rules of the type keep their text until another rule is assigned to the variable *)
Definition rules_kept {T A} (O : obj T A) (txt : option T -> string) : Prop :=
  forall prog q r, (forall d, In d q -> ~ assigns r d) ->
  vlook txt (vrun O vstart (prog ++ q)%list) r = vlook txt (vrun O vstart prog) r.
(* a rule made by method f of variable x follows x *)
Definition rules_follow {T A} (O : obj T A) (txt : option T -> string) : Prop :=
  forall prog q r x f c, let s := vrun O vstart prog in
  look (v_st s) x <> None -> f (look (v_st s) x) = Some c -> (forall d, In d q -> leaves r x d) ->
  let s' := vrun O s (VMake r x f :: q) in
  vlook txt s' r = Some (with_ex c (Some (XText (txt (look (v_st s') x))))).

(* rules on times of day keep their text *)
Theorem C106_time_of_day : rules_kept o_tod tod_string.
Proof. intros prog q r. apply kept; [apply ok_tod|reflexivity]. Qed.
(* rules on addresses, host names, strength factors, search filters and URIs follow the value *)
Theorem C106_follow : rules_follow o_ip ipaddr_string /\ rules_follow o_fqdn fqdn_string /\ rules_follow o_ssf ssf_string /\
  rules_follow o_sf sf_string /\ rules_follow o_uri (fun u => match u with Some u => uri_string u | None => "" end).
Proof.
  assert (G : forall T A (O : obj T A) txt, obj_ok O -> (forall c a, o_keeps O (Some c) a = true) -> rules_follow O txt).
  { intros T A O txt K1 K2 prog q r x f c. exact (follows O txt K1 K2 prog q r x f c). }
  repeat apply conj; apply G; first [apply ok_ip|apply ok_fqdn|apply ok_ssf|apply ok_sf|apply ok_uri|reflexivity].
Qed.
(* so those rules, and those on distinguished names and inheritance, do not keep their text *)
Theorem C106_refuted : 
  ~ rules_kept o_ip ipaddr_string /\ ~ rules_kept o_fqdn fqdn_string /\ ~ rules_kept o_ssf ssf_string /\
  ~ rules_kept o_sf sf_string /\ ~ rules_kept o_bdn (dn_string badBDN) /\ ~ rules_kept o_tdn (dn_string badTDN) /\
  ~ rules_kept (o_inh shifty_ref) (inh_string shifty_ref "").
Proof.
  assert (N : forall T A (r : nat) (c : @cmd T A) (d : vcmd), In d [VDo c] -> ~ assigns r d) by (intros T A r c d [<-|[]] H; exact H).
  repeat apply conj; intros H.
  - specialize (H [VDo (CNew 0 (IP ["10.0.0.1"])); VMake 0 0 (ip_Eq true)] [VDo (CCall 0 ["10.0.0.2"])] 0%nat (N _ _ _ _)). vm_compute in H. discriminate H.
  - specialize (H [VDo (CNew 0 (DNS ["example"; "com"])); VMake 0 0 (fqdn_Eq true)] [VDo (CCall 0 ["org"])] 0%nat (N _ _ _ _)). vm_compute in H. discriminate H.
  - specialize (H [VDo (CNew 0 (SSF [SInt 1])); VMake 0 0 (ssf_Ge true)] [VDo (CCall 0 (SInt 128))] 0%nat (N _ _ _ _)). vm_compute in H. discriminate H.
  - specialize (H [VDo (CNew 0 (Filter ["(cn=a)"])); VMake 0 0 (sf_Eq true)] [VDo (CCall 0 "(cn=b)")] 0%nat (N _ _ _ _)). vm_compute in H. discriminate H.
  - specialize (H [VDo (CNew 0 (UDN "cn=a")); VMake 0 0 (bdn_Eq true)] [VDo (CCall 0 ("cn=b", []))] 0%nat (N _ _ _ _)). vm_compute in H. discriminate H.
  - specialize (H [VDo (CNew 0 (TDN "cn=a")); VMake 0 0 (tdn_Eq true)] [VDo (CCall 0 ("cn=b", []))] 0%nat (N _ _ _ _)). vm_compute in H. discriminate H.
  - specialize (H [VDo (CNew 0 (Some (MkInh 1 (UAT [BStr "manager"; BStr "USERDN"])))); VMake 0 0 (inh_Eq shifty_ref true "")] [VDo (CCall 0 (true, [LLevel 2]))] 0%nat (N _ _ _ _)).
    vm_compute in H. discriminate H.
Qed.
(* the methods make rules that say what the value says *)
Theorem C106_made : forall T A (O : obj T A) txt prog r x f, obj_ok O -> says txt f -> let s := vrun O vstart prog in
  vlook txt (vexec O s (VMake r x f)) r = f (look (v_st s) x).
Proof. intros T A O txt prog r x f K F s. now apply made. Qed.
Lemma btext_says : forall pad kw op s c, btext pad kw op s = Some c -> c_ex c = Some (XText s).
Proof.
  intros pad kw op s c. unfold btext, BR, br_set_operator, br_set_expression, br_set_keyword, br_init, on_cond.
  destruct (_ && _)%bool; [|destruct (op_arg _ =? 0)%N]; intros H; injection H as <-; reflexivity.
Qed.
Lemma ttext_says : forall pad kw op s c, ttext pad kw op s = Some c -> c_ex c = Some (XText s).
Proof.
  intros pad kw op s c. unfold ttext, TR, tr_set_operator, tr_set_expression, tr_set_keyword, tr_init, br_init, on_cond.
  destruct (op_arg _ =? 0)%N; [|destruct (_ && _)%bool]; intros H; injection H as <-; reflexivity.
Qed.
Theorem C106_says : forall sh pad fmt,
  says ipaddr_string (ip_Eq pad) /\ says ipaddr_string (ip_Ne pad) /\ says fqdn_string (fqdn_Eq pad) /\ says fqdn_string (fqdn_Ne pad) /\
  says ssf_string (ssf_Eq pad) /\ says ssf_string (ssf_Ne pad) /\ says ssf_string (ssf_Lt pad) /\ says ssf_string (ssf_Le pad) /\
  says ssf_string (ssf_Gt pad) /\ says ssf_string (ssf_Ge pad) /\
  says tod_string (tod_Eq pad) /\ says tod_string (tod_Ne pad) /\ says tod_string (tod_Lt pad) /\ says tod_string (tod_Le pad) /\
  says tod_string (tod_Gt pad) /\ says tod_string (tod_Ge pad) /\
  says (dn_string badBDN) (bdn_Eq pad) /\ says (dn_string badBDN) (bdn_Ne pad) /\ says (dn_string badTDN) (tdn_Eq pad) /\ says (dn_string badTDN) (tdn_Ne pad) /\
  says sf_string (sf_Eq pad) /\ says sf_string (sf_Ne pad) /\
  says (inh_string sh fmt) (inh_Eq sh pad fmt) /\ says (inh_string sh fmt) (inh_Ne sh pad fmt).
Proof.
  intros sh pad fmt. repeat apply conj; intros v c H;
  unfold ip_Eq, ip_Ne, fqdn_Eq, fqdn_Ne, ssf_Eq, ssf_Ne, ssf_Lt, ssf_Le, ssf_Gt, ssf_Ge, tod_Eq, tod_Ne, tod_Lt, tod_Le, tod_Gt, tod_Ge,
    bdn_Eq, bdn_Ne, bdn_cond, tdn_Eq, tdn_Ne, tdn_cond, sf_Eq, sf_Ne, inh_Eq, inh_Ne in H;
  repeat match type of H with (if ?b then _ else _) = _ => destruct b; try discriminate H end;
  first [now apply btext_says in H|now apply ttext_says in H].
Qed.
Print Assumptions C106_call.
Print Assumptions C106_time_of_day.
Print Assumptions C106_follow.
Print Assumptions C106_refuted.
Print Assumptions C106_made.
Print Assumptions C106_says.
Example C106_witness :
  let s := vrun o_ip vstart [VDo (CNew 0 (IP ["10.0.0.1"])); VMake 0 0 (ip_Eq true)] in
  br_string (vlook ipaddr_string s 0) = "ip = " ++ quote "10.0.0.1" /\
  br_string (vlook ipaddr_string (vrun o_ip s [VDo (CCopy 1 0); VDo (CCall 1 ["10.0.0.2"]); VCopy 1 0]) 0) = "ip = " ++ quote "10.0.0.1,10.0.0.2" /\
  br_string (vlook tod_string (vrun o_tod vstart [VDo (CNew 0 (ToD [TStr "0800"])); VMake 0 0 (tod_Ge true); VDo (CCall 0 (TStr "1700"))]) 0) = "timeofday >= " ++ quote "0800".
Proof. repeat apply conj; vm_compute; reflexivity. Qed.
