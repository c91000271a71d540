(* C85-C88: values around pointers. *)
From Coq Require Import String Ascii List PeanoNat NArith ZArith Bool Lia.
From Verif Require Import GoStr GoStrFacts Shifty MMisc MAttr MKw MRights MLevels MLists MSec MNet MTime MFilter MUri MRule MConv MTree MAci
  SLists PLists SKw PKw PTree TTree SAci PAci TAci MHeap SHeap.
Import ListNotations.
Open Scope string_scope.

Lemma rd_app {T} (h : list T) c l : (l < List.length h)%nat -> rd (h ++ [c])%list (Some l) = rd h (Some l).
Proof. intros L. cbn. now apply nth_error_app1. Qed.
Lemma rd_last {T} (h : list T) c : rd (h ++ [c])%list (Some (List.length h)) = Some c.
Proof. cbn. rewrite nth_error_app2, Nat.sub_diag by lia. reflexivity. Qed.
Lemma wr_len {T} (h : list T) : forall l c, List.length (wr h l c) = List.length h.
Proof. induction h as [|x h IH]; intros [|l] c; cbn; congruence. Qed.
Lemma wr_same {T} (h : list T) : forall l c, (l < List.length h)%nat -> rd (wr h l c) (Some l) = Some c.
Proof. induction h as [|x h IH]; intros [|l] c L; cbn in *; try lia; [reflexivity|]. apply (IH l c). lia. Qed.
Lemma wr_other {T} (h : list T) : forall l k c, k <> l -> rd (wr h l c) (Some k) = rd h (Some k).
Proof. induction h as [|x h IH]; intros [|l] [|k] c N; cbn in *; try reflexivity; try lia. apply (IH l k c). lia. Qed.
Lemma upd_same {V} (e : nat -> V) x v : upd e x v x = v.
Proof. unfold upd. now rewrite Nat.eqb_refl. Qed.
Lemma upd_other {V} (e : nat -> V) x v y : y <> x -> upd e x v y = e y.
Proof. unfold upd. intros N. apply Nat.eqb_neq in N. now rewrite N. Qed.

(* every pointer leads to a cell *)
Definition wf {T} (s : @state T) : Prop := forall x l, st_var s x = Some l -> (l < List.length (st_heap s))%nat.
(* methods give a value to a value *)
Definition obj_ok {T A} (O : obj T A) : Prop :=
  (forall c a, o_set O (Some c) a <> None) /\ (forall a, o_keeps O None a = false).

Section Obj.
Context {T A : Type}.
Variable O : obj T A.
Hypothesis OK : obj_ok O.

Lemma rd_some (h : list T) l : (l < List.length h)%nat -> exists c, rd h (Some l) = Some c.
Proof. intros L. cbn. destruct (nth_error h l) as [c|] eqn:E; [now exists c|]. apply nth_error_None in E. lia. Qed.
Lemma rd_none (h : list T) p : (forall l, p = Some l -> (l < List.length h)%nat) -> rd h p = None -> p = None.
Proof. intros W N. destruct p as [l|]; [|reflexivity]. destruct (rd_some h l (W l eq_refl)) as [c E]. congruence. Qed.

(* one call: [h'] the heap, [p'] the receiver, [q] the result *)
Lemma hcall_spec h p a h' p' q : (forall l, p = Some l -> (l < List.length h)%nat) -> hcall O h p a = (h', p', q) ->
  (List.length h <= List.length h')%nat /\
  (forall l, p' = Some l -> (l < List.length h')%nat) /\ (forall l, q = Some l -> (l < List.length h')%nat) /\
  rd h' p' = after O (rd h p) a /\ rd h' q = (match o_set O (rd h p) a with Some c => Some c | None => rd h p end) /\
  (forall k, (k < List.length h)%nat -> (o_keeps O (rd h p) a = true -> p <> Some k) -> rd h' (Some k) = rd h (Some k)) /\
  (p' = p \/ p' = Some (List.length h) /\ List.length h' = S (List.length h)) /\
  (q = p' \/ q = p \/ q = Some (List.length h) /\ List.length h' = S (List.length h)) /\
  (o_keeps O (rd h p) a = true -> p' = p /\ q = p).
Proof.
  intros Wp H. destruct OK as [OS OK2]. unfold hcall in H. destruct p as [l|].
  - assert (L := Wp l eq_refl). destruct (rd_some h l L) as [c E]. rewrite E in *. destruct (o_set O (Some c) a) as [d|] eqn:S; [|now destruct (OS c a)].
    unfold after. destruct (o_keeps O (Some c) a) eqn:K; cbn [orb].
    + injection H as <- <- <-. rewrite wr_len, wr_same by exact L. repeat apply conj; try easy; try (now intros k [= <-]); try now left.
      intros k Lk N. apply wr_other. intros ->. now apply (N eq_refl).
    + assert (LH : List.length (h ++ [d])%list = Datatypes.S (List.length h)) by (rewrite app_length; cbn; lia).
      destruct (o_ptr O a); injection H as <- <- <-; rewrite LH, rd_last; repeat apply conj; try easy; try lia.
      * intros k [= <-]. lia.
      * intros k [= <-]. lia.
      * intros k Lk _. now apply rd_app.
      * right. now split.
      * now left.
      * intros k [= <-]. lia.
      * intros k [= <-]. lia.
      * rewrite rd_app by exact L. exact E.
      * intros k Lk _. now apply rd_app.
      * now left.
      * right. right. now split.
  - change (rd h None) with (@None T) in *. rewrite OK2 in *. unfold after. destruct (o_set O None a) as [d|] eqn:S.
    + assert (LH : List.length (h ++ [d])%list = Datatypes.S (List.length h)) by (rewrite app_length; cbn; lia).
      destruct (o_ptr O a); injection H as <- <- <-; rewrite LH, rd_last; repeat apply conj; try easy; try lia.
      * intros k [= <-]. lia.
      * intros k [= <-]. lia.
      * intros k Lk _. now apply rd_app.
      * right. now split.
      * now left.
      * intros k [= <-]. lia.
      * intros k Lk _. now apply rd_app.
      * now left.
      * right. right. now split.
    + injection H as <- <- <-. repeat apply conj; try easy; try lia.
      * now destruct (o_ptr O a).
      * now left.
      * now left.
Qed.
Lemma wf_exec s c : wf s -> wf (exec O s c).
Proof.
  intros Ws. destruct c as [x v|x y|x a|z x a]; cbn [exec].
  - destruct v as [c|]; cbn [alloc]; intros y l; cbn [st_var st_heap].
    + rewrite app_length. cbn. destruct (Nat.eq_dec y x) as [->|N]; [rewrite upd_same; intros [= <-]; lia|].
      rewrite upd_other by exact N. intros E. apply Ws in E. lia.
    + destruct (Nat.eq_dec y x) as [->|N]; [now rewrite upd_same|]. rewrite upd_other by exact N. apply Ws.
  - intros w l; cbn [st_var st_heap]. destruct (Nat.eq_dec w x) as [->|N]; [rewrite upd_same|rewrite upd_other by exact N]; apply Ws.
  - destruct (hcall O (st_heap s) (st_var s x) a) as [[h p] q] eqn:E. destruct (hcall_spec _ _ _ _ _ _ (Ws x) E) as (L & P & _).
    intros y l; cbn [st_var st_heap]. destruct (Nat.eq_dec y x) as [->|N]; [rewrite upd_same; apply P|].
    rewrite upd_other by exact N. intros F. apply Ws in F. lia.
  - destruct (hcall O (st_heap s) (st_var s x) a) as [[h p] q] eqn:E. destruct (hcall_spec _ _ _ _ _ _ (Ws x) E) as (L & P & Q & _).
    intros y l; cbn [st_var st_heap]. destruct (Nat.eq_dec y z) as [->|N]; [rewrite upd_same; apply Q|].
    rewrite upd_other by exact N. destruct (Nat.eq_dec y x) as [->|N']; [rewrite upd_same; apply P|].
    rewrite upd_other by exact N'. intros F. apply Ws in F. lia.
Qed.
Lemma wf_all p : forall s, wf s -> wf (exec_all O s p).
Proof. induction p as [|c p IH]; intros s Ws; [exact Ws|]. apply IH. now apply wf_exec. Qed.
Lemma heap_grows s c : wf s -> (List.length (st_heap s) <= List.length (st_heap (exec O s c)))%nat.
Proof.
  intros Ws. destruct c as [x v|x y|x a|z x a]; cbn [exec].
  - destruct v; cbn [alloc st_heap]; [rewrite app_length; lia|lia].
  - cbn [st_heap]. lia.
  - destruct (hcall O (st_heap s) (st_var s x) a) as [[h p] q] eqn:E. now destruct (hcall_spec _ _ _ _ _ _ (Ws x) E).
  - destruct (hcall O (st_heap s) (st_var s x) a) as [[h p] q] eqn:E. now destruct (hcall_spec _ _ _ _ _ _ (Ws x) E).
Qed.
Lemma wf_start : wf (@start T).
Proof. intros x l E. discriminate E. Qed.

(* distinct variables hold distinct pointers *)
Definition apart (s : @state T) : Prop := forall x y l, st_var s x = Some l -> st_var s y = Some l -> x = y.
Lemma call_own s x a h p q : wf s -> apart s -> hcall O (st_heap s) (st_var s x) a = (h, p, q) ->
  forall y, y <> x -> rd h (st_var s y) = look s y.
Proof.
  intros Ws Ap E y N. destruct (hcall_spec _ _ _ _ _ _ (Ws x) E) as (_ & _ & _ & _ & _ & F & _).
  unfold look. destruct (st_var s y) as [k|] eqn:Y; [|reflexivity]. apply F; [now apply (Ws y)|].
  intros _ X. apply N. now apply (Ap y x k).
Qed.
Lemma apart_call s x h p : wf s -> apart s ->
  (p = st_var s x \/ p = Some (List.length (st_heap s))) -> apart (MkSt h (upd (st_var s) x p)).
Proof.
  intros Ws Ap P y z l; cbn [st_var]. assert (G : forall w, w <> x -> st_var s w = Some l -> p = Some l -> False).
  { intros w N F E. destruct P as [P|P]; rewrite P in E; [apply N; now apply (Ap w x l)|]. injection E as <-. apply Ws in F. lia. }
  destruct (Nat.eq_dec y x) as [->|Ny]; destruct (Nat.eq_dec z x) as [->|Nz]; rewrite ?upd_same; rewrite ?(upd_other _ _ _ y) by exact Ny; rewrite ?(upd_other _ _ _ z) by exact Nz.
  - reflexivity.
  - intros E F. now destruct (G z Nz F E).
  - intros F E. now destruct (G y Ny F E).
  - apply Ap.
Qed.
Lemma exec_own s c : wf s -> apart s -> match c with CCopy _ _ => False | CAssign z x _ => z = x | _ => True end ->
  apart (exec O s c) /\ forall x, look (exec O s c) x = own O x [c] (look s x).
Proof.
  intros Ws Ap NC. destruct c as [x v|x y|x a|z x a]; cbn [exec own]; [|now destruct NC| |subst z].
  - destruct v as [c|]; cbn [alloc].
    + split.
      * apply apart_call; try assumption. now right.
      * intros y. unfold look. cbn [st_var st_heap]. destruct (Nat.eqb_spec y x) as [->|N]; [now rewrite upd_same, rd_last|].
        rewrite upd_other by exact N. destruct (st_var s y) as [l|] eqn:E; [|reflexivity]. apply rd_app. now apply (Ws y).
    + split.
      * intros y z l; cbn [st_var]. destruct (Nat.eq_dec y x) as [->|Ny]; destruct (Nat.eq_dec z x) as [->|Nz]; rewrite ?upd_same;
          rewrite ?(upd_other _ _ _ y) by exact Ny; rewrite ?(upd_other _ _ _ z) by exact Nz; try easy. apply Ap.
      * intros y. unfold look. cbn [st_var st_heap]. destruct (Nat.eqb_spec y x) as [->|N]; [now rewrite upd_same|now rewrite upd_other].
  - destruct (hcall O (st_heap s) (st_var s x) a) as [[h p] q] eqn:E. assert (HO := call_own _ _ _ _ _ _ Ws Ap E).
    destruct (hcall_spec _ _ _ _ _ _ (Ws x) E) as (_ & _ & _ & R & _ & _ & P & _). split.
    + apply apart_call; try assumption. destruct P as [P|[P _]]; [now left|now right].
    + intros y. unfold look at 1. cbn [st_var st_heap]. destruct (Nat.eqb_spec y x) as [->|N]; [now rewrite upd_same|]. rewrite upd_other by exact N. now apply HO.
  - destruct (hcall O (st_heap s) (st_var s x) a) as [[h p] q] eqn:E. assert (HO := call_own _ _ _ _ _ _ Ws Ap E).
    destruct (hcall_spec _ _ _ _ _ _ (Ws x) E) as (_ & _ & _ & _ & R & _ & P & Q & _).
    assert (U : forall y, upd (upd (st_var s) x p) x q y = upd (st_var s) x q y).
    { intros y. unfold upd. now destruct (y =? x)%nat. }
    assert (PQ : q = st_var s x \/ q = Some (List.length (st_heap s))).
    { destruct Q as [->|[->|[-> _]]]; [destruct P as [P|[P _]]; [now left|now right]|now left|now right]. }
    split.
    + intros y z l. cbn [st_var]. rewrite !U. exact (apart_call s x h q Ws Ap PQ y z l).
    + intros y. unfold look at 1. cbn [st_var st_heap]. rewrite U. destruct (Nat.eqb_spec y x) as [->|N]; [rewrite upd_same; exact R|]. rewrite upd_other by exact N. now apply HO.
Qed.
Lemma own_app x p : forall q v, own O x (p ++ q)%list v = own O x q (own O x p v).
Proof. induction p as [|c p IH]; intros q v; [reflexivity|]. destruct c; cbn [app own]; apply IH. Qed.
Lemma run_own p : no_copies p -> forall s, wf s -> apart s -> forall x, look (exec_all O s p) x = own O x p (look s x).
Proof.
  induction p as [|c p IH]; intros NC s Ws Ap x; [reflexivity|]. change (c :: p) with ([c] ++ p)%list. rewrite own_app.
  destruct (exec_own s c Ws Ap (NC c (or_introl eq_refl))) as [Ap' E]. rewrite <- E.
  apply (IH (fun c' I => NC c' (or_intror I)) (exec O s c)); [now apply wf_exec|exact Ap'].
Qed.
(* types whose methods never write into an existing cell: copies are independent *)
Lemma run_values p : (forall v a, o_keeps O v a = false) -> forall s e, wf s -> (forall x, look s x = e x) ->
  forall x, look (exec_all O s p) x = values O p e x.
Proof.
  intros K. induction p as [|c p IH]; intros s e Ws E x; [apply E|]. change (exec_all O s (c :: p)) with (exec_all O (exec O s c) p).
  assert (We := wf_exec s c Ws).
  destruct c as [y v|y z|y a|z y a]; cbn [values]; apply IH; try exact We; intros w; cbn [exec].
  - destruct v as [c|]; cbn [alloc]; unfold look; cbn [st_var st_heap]; destruct (Nat.eq_dec w y) as [->|N]; rewrite ?upd_same; rewrite ?upd_other by exact N; rewrite ?rd_last; try reflexivity; rewrite <- E; [|reflexivity].
    unfold look. destruct (st_var s w) as [l|] eqn:F; [|reflexivity]. apply rd_app. now apply (Ws w).
  - unfold look; cbn [st_var st_heap]; destruct (Nat.eq_dec w y) as [->|N]; rewrite ?upd_same; rewrite ?upd_other by exact N; apply E.
  - destruct (hcall O (st_heap s) (st_var s y) a) as [[h p'] q] eqn:H. destruct (hcall_spec _ _ _ _ _ _ (Ws y) H) as (_ & _ & _ & R & _ & F & _).
    unfold look; cbn [st_var st_heap]. destruct (Nat.eq_dec w y) as [->|N]; rewrite ?upd_same; rewrite ?upd_other by exact N.
    + rewrite R. now rewrite <- E.
    + rewrite <- E. unfold look. destruct (st_var s w) as [l|] eqn:G; [|reflexivity]. apply F; [now apply (Ws w)|]. rewrite K. discriminate.
  - destruct (hcall O (st_heap s) (st_var s y) a) as [[h p'] q] eqn:H. destruct (hcall_spec _ _ _ _ _ _ (Ws y) H) as (_ & _ & _ & R & Q & F & _).
    unfold look; cbn [st_var st_heap]. destruct (Nat.eq_dec w z) as [->|N]; rewrite ?upd_same; rewrite ?(upd_other _ z) by exact N.
    + rewrite Q. now rewrite <- E.
    + destruct (Nat.eq_dec w y) as [->|N']; rewrite ?upd_same; rewrite ?upd_other by exact N'.
      * rewrite R. now rewrite <- E.
      * rewrite <- E. unfold look. destruct (st_var s w) as [l|] eqn:G; [|reflexivity]. apply F; [now apply (Ws w)|]. rewrite K. discriminate.
Qed.
End Obj.

Lemma ok_bdn : obj_ok o_bdn. Proof. split; [discriminate|reflexivity]. Qed.
Lemma ok_tdn : obj_ok o_tdn. Proof. split; [discriminate|reflexivity]. Qed.
Lemma ok_perm sh : obj_ok (o_perm sh).
Proof. split; [|reflexivity]. intros [d n] [[|] xs]; cbn; discriminate. Qed.
Lemma ok_inh sh : obj_ok (o_inh sh).
Proof. split; [|now intros [[|] xs]]. intros [n b] [[|] xs]; cbn; [discriminate|]. now destruct (abtv_isZero b). Qed.
Lemma ok_ssf : obj_ok o_ssf. Proof. split; [discriminate|reflexivity]. Qed.
Lemma ok_ip : obj_ok o_ip. Proof. split; [discriminate|reflexivity]. Qed.
Lemma ok_fqdn : obj_ok o_fqdn. Proof. split; [discriminate|reflexivity]. Qed.
Lemma ok_tod : obj_ok o_tod. Proof. split; [discriminate|reflexivity]. Qed.
Lemma ok_sf : obj_ok o_sf. Proof. split; [discriminate|reflexivity]. Qed.
Lemma ok_af : obj_ok o_af. Proof. split; [discriminate|reflexivity]. Qed.
Lemma ok_uri : obj_ok o_uri. Proof. split; [discriminate|reflexivity]. Qed.
Lemma ok_ins W : obj_ok (o_ins W). Proof. split; [discriminate|reflexivity]. Qed.

(* ---- C85: values made by separate calls do not affect each other ---- *)
Definition separate {T A} (O : obj T A) : Prop :=
  forall p x, no_copies p -> look (exec_all O start p) x = own O x p None.
Theorem C85_separate :
  separate o_bdn /\ separate o_tdn /\ (forall sh, separate (o_perm sh)) /\ (forall sh, separate (o_inh sh)) /\ separate o_ssf /\
  separate o_ip /\ separate o_fqdn /\ separate o_tod /\ separate o_sf /\ separate o_af /\ separate o_uri /\ (forall W, separate (o_ins W)).
Proof.
  assert (G : forall T A (O : obj T A), obj_ok O -> separate O).
  { intros T A O K p x NC. apply (run_own O K p NC start wf_start); intros y z l E; discriminate E. }
  repeat apply conj; intros; apply G; first [apply ok_bdn|apply ok_tdn|apply ok_perm|apply ok_inh|apply ok_ssf|apply ok_ip|apply ok_fqdn|apply ok_tod|apply ok_sf|apply ok_af|apply ok_uri|apply ok_ins].
Qed.
Print Assumptions C85_separate.
Example C85_witness : let p := [CNew 0 (IP ["10.0.0.1"]); CNew 1 (IP []); CCall 1 ["10.0.0.2"]; CCall 0 ["10.0.0.3"]; CCall 2 ["10.0.0.4"]] in
  no_copies p /\ look (exec_all o_ip start p) 0 = IP ["10.0.0.1"; "10.0.0.3"] /\ look (exec_all o_ip start p) 1 = IP ["10.0.0.2"] /\
  look (exec_all o_ip start p) 2 = IP ["10.0.0.4"].
Proof.
  cbv zeta. repeat apply conj; try (vm_compute; reflexivity). intros c [<-|[<-|[<-|[<-|[<-|[]]]]]]; exact I.
Qed.

(* ---- C86: changing a copy leaves the original as it was ---- *)
(* [copies_independent O]: in every program, copies included, each variable shows the
   effect of the statements that name it *)
Definition copies_independent {T A} (O : obj T A) : Prop :=
  forall p x, look (exec_all O start p) x = values O p (fun _ => None) x.
(* true of times of day *)
Theorem C86_time_of_day : copies_independent o_tod.
Proof. intros p x. apply (run_values o_tod ok_tod p (fun _ _ => eq_refl) start (fun _ => None) wf_start). now intros y. Qed.
(* false of the others *)
Theorem C86_refuted : forall sh W, shifty_ok sh ->
  ~ copies_independent o_bdn /\ ~ copies_independent o_tdn /\ ~ copies_independent (o_perm sh) /\ ~ copies_independent (o_inh sh) /\
  ~ copies_independent o_ssf /\ ~ copies_independent o_ip /\ ~ copies_independent o_fqdn /\ ~ copies_independent o_sf /\
  ~ copies_independent o_af /\ ~ copies_independent o_uri /\ ~ copies_independent (o_ins W).
Proof.
  intros sh W SH. repeat apply conj; intros H.
  - specialize (H [CNew 0 (UDN "cn=a"); CCopy 1 0; CCall 1 ("cn=b", [])] 0%nat). discriminate H.
  - specialize (H [CNew 0 (TDN "cn=a"); CCopy 1 0; CCall 1 ("cn=b", [])] 0%nat). discriminate H.
  - specialize (H [CNew 0 (Some (true, 0%N)); CCopy 1 0; CCall 1 (true, [ARight 1])] 0%nat).
    assert (E : Some (true, sh_shift sh 16 0 (Z.of_N 1)) = Some (true, 0%N)) by exact H.
    rewrite (proj1 (proj1 (SH 16%N 0%N eq_refl) 1%N eq_refl eq_refl)) in E. discriminate E.
  - specialize (H [CNew 0 (Some (MkInh 0 (UAT [BStr "manager"; BStr "USERDN"]))); CCopy 1 0; CCall 1 (true, [LLevel 1])] 0%nat).
    assert (E : Some (MkInh (sh_shift sh 16 0 (Z.of_N 1)) (UAT [BStr "manager"; BStr "USERDN"])) = Some (MkInh 0 (UAT [BStr "manager"; BStr "USERDN"]))) by exact H.
    rewrite (proj1 (proj1 (SH 16%N 0%N eq_refl) 1%N eq_refl eq_refl)) in E. discriminate E.
  - specialize (H [CNew 0 (SSF [SInt 1]); CCopy 1 0; CCall 1 (SInt 128)] 0%nat). discriminate H.
  - specialize (H [CNew 0 (IP []); CCopy 1 0; CCall 1 ["10.0.0.1"]] 0%nat). discriminate H.
  - specialize (H [CNew 0 (DNS []); CCopy 1 0; CCall 1 ["www"; "example"; "com"]] 0%nat). vm_compute in H. discriminate H.
  - specialize (H [CNew 0 (Filter ["(cn=a)"]); CCopy 1 0; CCall 1 "(cn=b)"] 0%nat). discriminate H.
  - specialize (H [CNew 0 (AF [FStr "cn"; FStr "(cn=a)"]); CCopy 1 0; CCall 1 [FStr "(cn=b)"]] 0%nat). vm_compute in H. discriminate H.
  - specialize (H [CNew 0 (Some uri_new); CCopy 1 0; CCall 1 [UDn (UDN "cn=a")]] 0%nat). discriminate H.
  - specialize (H [CNew 0 (ACI W []); CCopy 1 0; CCall 1 [IStr "label"]] 0%nat). discriminate H.
Qed.
(* exactly: two variables share when one was copied from the other, and a method that
   writes changes what both show and nothing else *)
Definition share {T} (s : @state T) (x y : nat) : Prop := exists l, st_var s x = Some l /\ st_var s y = Some l.
Theorem C86_call : forall T A (O : obj T A) p x a y, obj_ok O -> let s := exec_all O start p in let s' := exec O s (CCall x a) in
  look s' x = after O (look s x) a /\
  (share s x y -> o_keeps O (look s x) a = true -> look s' y = look s' x) /\
  (y <> x -> ~ share s x y \/ o_keeps O (look s x) a = false -> look s' y = look s y).
Proof.
  intros T A O p x a y K s s'. assert (Ws : wf s) by (apply wf_all; [exact K|apply wf_start]). unfold s'. cbn [exec].
  destruct (hcall O (st_heap s) (st_var s x) a) as [[h p'] q] eqn:E. destruct (hcall_spec O K _ _ _ _ _ _ (Ws x) E) as (_ & _ & _ & R & _ & F & _ & _ & KP).
  repeat apply conj.
  - unfold look at 1. cbn [st_var st_heap]. now rewrite upd_same.
  - intros (l & X & Y) Kp. destruct (KP Kp) as [-> _]. unfold look. cbn [st_var st_heap]. rewrite upd_same. destruct (Nat.eq_dec y x) as [->|N]; [now rewrite upd_same|].
    rewrite upd_other by exact N. now rewrite X, Y.
  - intros N C. unfold look at 1. cbn [st_var st_heap]. rewrite upd_other by exact N. unfold look. destruct (st_var s y) as [k|] eqn:Y; [|reflexivity].
    apply F; [now apply (Ws y)|]. intros Kp X. destruct C as [C|C]; [apply C; now exists k|unfold look in C; congruence].
Qed.
(* Which methods change the variable they are called on.  Set always does (also an
   uninitialised one); Shift and Unshift of a permission only one that is initialised,
   and Shift of an inheritance only one that is not zero. *)
Definition sets_own {T A} (O : obj T A) : Prop := forall p x a, let s := exec_all O start p in
  look (exec O s (CCall x a)) x = o_set O (look s x) a.
Theorem C85_method :
  sets_own o_bdn /\ sets_own o_tdn /\ sets_own o_ssf /\ sets_own o_ip /\ sets_own o_fqdn /\ sets_own o_tod /\ sets_own o_sf /\
  sets_own o_af /\ sets_own o_uri /\ (forall W, sets_own (o_ins W)) /\
  (forall sh p x on xs, let s := exec_all (o_perm sh) start p in let s' := exec (o_perm sh) s (CCall x (on, xs)) in
     look s' x = match look s x with
                 | None => None
                 | Some (d, v) => perm_cell (if on then perm_shift sh (PSome d v) xs else perm_unshift sh (PSome d v) xs)
                 end) /\
  (forall sh p x on xs, let s := exec_all (o_inh sh) start p in let s' := exec (o_inh sh) s (CCall x (on, xs)) in
     look s' x = match look s x with
                 | None => None
                 | Some i => if on then if inh_isZero (Some i) then Some i else inh_shift sh (Some i) xs else inh_unshift sh (Some i) xs
                 end).
Proof.
  assert (G : forall T A (O : obj T A), obj_ok O -> (forall a, o_ptr O a = true) -> sets_own O).
  { intros T A O K P p x a s. assert (E := proj1 (C86_call T A O p x a x K)). fold s in E. rewrite E. unfold after. rewrite P, orb_true_r. now destruct (look s x). }
  repeat apply conj; [apply G; [apply ok_bdn|reflexivity]|apply G; [apply ok_tdn|reflexivity]|apply G; [apply ok_ssf|reflexivity]|
    apply G; [apply ok_ip|reflexivity]|apply G; [apply ok_fqdn|reflexivity]|apply G; [apply ok_tod|reflexivity]|apply G; [apply ok_sf|reflexivity]|
    apply G; [apply ok_af|reflexivity]|apply G; [apply ok_uri|reflexivity]|intros W; apply G; [apply ok_ins|reflexivity]| |].
  - intros sh p x on xs s s'. assert (E := proj1 (C86_call _ _ (o_perm sh) p x (on, xs) x (ok_perm sh))). fold s in E. unfold s'. rewrite E. destruct (look s x) as [[d v]|]; reflexivity.
  - intros sh p x on xs s s'. assert (E := proj1 (C86_call _ _ (o_inh sh) p x (on, xs) x (ok_inh sh))). fold s in E. unfold s'. rewrite E. unfold after. cbn [o_ptr o_keeps o_inh o_set fst snd].
    destruct (look s x) as [i|]; [|reflexivity]. destruct on; [|reflexivity]. destruct (inh_isZero (Some i)); reflexivity.
Qed.
Print Assumptions C85_method.
Example C85_method_witness : look (exec o_tod (exec_all o_tod start [CNew 0 (tod_set None (TStr "0900"))]) (CCall 0 (TStr "1730"))) 0 = tod_set None (TStr "1730") /\
  tod_set None (TStr "1730") <> tod_set None (TStr "0900").
Proof. split; [vm_compute; reflexivity|discriminate]. Qed.
(* so a copied variable and its original stay equal whatever is called on either *)
Definition retargets {T A} (z : nat) (c : @cmd T A) : Prop :=
  match c with CNew x _ => x = z | CCopy x _ => x = z | CCall _ _ => False | CAssign x _ _ => x = z end.
Theorem C86_linked : forall T A (O : obj T A) p q x y v, obj_ok O -> (forall c a, o_keeps O (Some c) a = true) -> v <> None -> x <> y ->
  (forall c, In c q -> ~ retargets x c /\ ~ retargets y c) ->
  let s := exec_all O start (p ++ [CNew x v; CCopy y x] ++ q)%list in look s x = look s y /\ look s x <> None.
Proof.
  intros T A O p q x y v K KK V XY N s. assert (Ws : wf s) by (apply wf_all; [exact K|apply wf_start]).
  assert (G : share s x y).
  { unfold s, exec_all. rewrite fold_left_app, fold_left_app. fold (exec_all O start p). set (s0 := exec_all O start p).
    assert (W0' : wf s0) by (apply wf_all; [exact K|apply wf_start]). destruct v as [c|]; [|now destruct V].
    set (s1 := fold_left (exec O) [CNew x (Some c); CCopy y x] s0).
    assert (W1 : wf s1) by (apply (wf_all O K [CNew x (Some c); CCopy y x]); exact W0').
    assert (S1 : share s1 x y).
    { unfold s1. cbn [fold_left exec alloc]. exists (List.length (st_heap s0)). cbn [st_var]. rewrite upd_other by exact XY. rewrite !upd_same. now split. }
    revert S1 W1. generalize s1. clear - N K KK. induction q as [|c q IH]; intros s (l & X & Y) Ws; [now exists l|]. cbn [fold_left].
    apply IH; [intros d I; apply N; now right| |now apply wf_exec]. destruct (N c (or_introl eq_refl)) as [NX NY]. destruct c as [z w|z w|z a|z w a]; cbn [retargets exec] in *.
    - destruct w; cbn [alloc]; exists l; cbn [st_var]; rewrite !upd_other by congruence; now split.
    - exists l. cbn [st_var]. rewrite !upd_other by congruence. now split.
    - destruct (hcall O (st_heap s) (st_var s z) a) as [[h p'] r] eqn:E. exists l. cbn [st_var].
      destruct (hcall_spec O K _ _ _ _ _ _ (Ws z) E) as (_ & _ & _ & _ & _ & _ & _ & _ & KP).
      assert (Z : forall u, (u = x \/ u = y) -> upd (st_var s) z p' u = Some l).
      { intros u U. assert (UL : st_var s u = Some l) by (destruct U as [U|U]; rewrite U; assumption).
        destruct (Nat.eq_dec u z) as [->|Nu]; [|now rewrite upd_other]. rewrite upd_same. destruct (rd_some (st_heap s) l (Ws _ _ UL)) as [c Hc].
        rewrite UL in KP. rewrite Hc in KP. destruct (KP (KK c a)) as [-> _]. reflexivity. }
      split; apply Z; [now left|now right].
    - destruct (hcall O (st_heap s) (st_var s w) a) as [[h p'] r] eqn:E. exists l. cbn [st_var].
      destruct (hcall_spec O K _ _ _ _ _ _ (Ws w) E) as (_ & _ & _ & _ & _ & _ & _ & _ & KP).
      assert (Z : forall u, (u = x \/ u = y) -> u <> z -> upd (upd (st_var s) w p') z r u = Some l).
      { intros u U Nz. rewrite upd_other by exact Nz. assert (UL : st_var s u = Some l) by (destruct U as [U|U]; rewrite U; assumption).
        destruct (Nat.eq_dec u w) as [->|Nu]; [|now rewrite upd_other]. rewrite upd_same. destruct (rd_some (st_heap s) l (Ws _ _ UL)) as [c Hc].
        rewrite UL in KP. rewrite Hc in KP. destruct (KP (KK c a)) as [-> _]. reflexivity. }
      split; apply Z; [now left|congruence|now right|congruence]. }
  destruct G as (l & X & Y). unfold look. rewrite X, Y. split; [reflexivity|]. destruct (rd_some (st_heap s) l (Ws _ _ X)) as [c ->]. discriminate.
Qed.
Print Assumptions C86_time_of_day.
Print Assumptions C86_refuted.
Print Assumptions C86_call.
Print Assumptions C86_linked.
Example C86_witness :
  look (exec_all o_tod start [CNew 0 (ToD [TStr "0800"]); CCopy 1 0; CCall 1 (TStr "1700")]) 0 = ToD [TStr "0800"] /\
  (forall c a, o_keeps o_ip (Some c) a = true) /\
  look (exec_all o_ip start ([] ++ [CNew 0 (IP ["10.0.0.1"]); CCopy 1 0] ++ [CCall 1 ["10.0.0.2"]; CCall 0 ["10.0.0.3"]])) 0 = IP ["10.0.0.1"; "10.0.0.2"; "10.0.0.3"].
Proof. repeat apply conj; vm_compute; reflexivity. Qed.

(* ---- C87: a permission-bind rule keeps what it was made of ---- *)
Section RuleHeap.
Variable W : world.
Definition rwf (s : rstate) : Prop :=
  (forall x l, r_pvar s x = Some l -> (l < List.length (r_perms s))%nat) /\
  (forall r l, r_rvar s r = Some l -> (l < List.length (r_cells s))%nat) /\
  (forall l q b, nth_error (r_cells s) l = Some (Some q, b) -> (q < List.length (r_perms s))%nat) /\
  (forall l, In (Some l) (r_list s) -> (l < List.length (r_cells s))%nat).
(* the cells of [s0] are as they were in s, and the variables of FP, FR hold newer ones *)
Definition seg (s0 s : rstate) (FP FR : list nat) : Prop :=
  rwf s0 /\ rwf s /\ r_list s = r_list s0 /\
  (List.length (r_perms s0) <= List.length (r_perms s))%nat /\ (List.length (r_cells s0) <= List.length (r_cells s))%nat /\
  (forall l, (l < List.length (r_perms s0))%nat -> nth_error (r_perms s) l = nth_error (r_perms s0) l) /\
  (forall l, (l < List.length (r_cells s0))%nat -> nth_error (r_cells s) l = nth_error (r_cells s0) l) /\
  (forall x, In x FP -> forall l, r_pvar s x = Some l -> (List.length (r_perms s0) <= l)%nat) /\
  (forall r, In r FR -> forall l, r_rvar s r = Some l -> (List.length (r_cells s0) <= l)%nat).
Lemma seg_rule s0 s FP FR p : seg s0 s FP FR -> (forall l, p = Some l -> (l < List.length (r_cells s0))%nat) -> rule_at s p = rule_at s0 p.
Proof.
  intros ((_ & _ & W3 & _) & _ & _ & _ & _ & P & C & _ & _) L. unfold rule_at. destruct p as [l|]; [|reflexivity]. cbn [rd].
  rewrite (C l (L l eq_refl)). destruct (nth_error (r_cells s0) l) as [[q b]|] eqn:E; [|reflexivity]. destruct q as [q|]; [|reflexivity]. cbn [rd].
  now rewrite (P q (W3 l q b E)).
Qed.
Lemma seg_list s0 s FP FR : seg s0 s FP FR -> rlist s = rlist s0.
Proof.
  intros S. assert (S' := S). destruct S' as ((_ & _ & _ & W4) & _ & L & _). unfold rlist. rewrite L. apply map_ext_in. intros p I.
  apply (seg_rule s0 s FP FR p S). intros l ->. now apply W4.
Qed.
Lemma in_without x y F : In y (without x F) -> In y F /\ y <> x.
Proof. unfold without. intros H. apply filter_In in H as [H N]. split; [exact H|]. now apply negb_true_iff, Nat.eqb_neq in N. Qed.
Lemma existsb_in y F : existsb (Nat.eqb y) F = true -> In y F.
Proof. intros H. apply existsb_exists in H as (z & I & E). apply Nat.eqb_eq in E. now subst. Qed.
Lemma nth_app_old {A} (l : list A) x i y : nth_error (l ++ [x])%list i = Some y -> nth_error l i = Some y \/ y = x /\ i = List.length l.
Proof.
  intros H. destruct (Nat.lt_ge_cases i (List.length l)) as [L|L]; [rewrite nth_error_app1 in H by exact L; now left|].
  rewrite nth_error_app2 in H by exact L. right. destruct (i - List.length l)%nat as [|k] eqn:E; cbn in H; [injection H as <-; split; [reflexivity|lia]|destruct k; discriminate H].
Qed.
Lemma seg_new_cell s0 s FP FR r c : seg s0 s FP FR -> (forall q, fst c = Some q -> (q < List.length (r_perms s))%nat) ->
  seg s0 (MkR (r_perms s) (r_cells s ++ [c])%list (r_pvar s) (upd (r_rvar s) r (Some (List.length (r_cells s)))) (r_list s)) FP (r :: FR).
Proof.
  intros (W0' & (A1 & A2 & A3 & A4) & L & N1 & N2 & P & C & FPx & FRx) Q. unfold seg, rwf. cbn [r_perms r_cells r_pvar r_rvar r_list].
  assert (LE : List.length (r_cells s ++ [c])%list = S (List.length (r_cells s))) by (rewrite app_length; cbn; lia). rewrite LE.
  repeat apply conj; try exact L; try exact P; try assumption; try lia; try exact (proj1 W0'); try exact (proj1 (proj2 W0')); try exact (proj1 (proj2 (proj2 W0'))); try exact (proj2 (proj2 (proj2 W0'))).
  - intros x l. destruct (Nat.eq_dec x r) as [->|N]; [rewrite upd_same; intros [= <-]; lia|]. rewrite upd_other by exact N. intros E. apply A2 in E. lia.
  - intros l q b E. apply nth_app_old in E as [E|[E _]]; [now apply (A3 l q b)|]. apply Q. now rewrite <- E.
  - intros l I. apply A4 in I. lia.
  - intros l Ll. rewrite nth_error_app1 by lia. now apply C.
  - intros x I l. destruct (Nat.eq_dec x r) as [->|N]; [rewrite upd_same; intros [= <-]; lia|]. rewrite upd_other by exact N.
    destruct I as [->|I]; [now destruct N|]. now apply FRx.
Qed.
Lemma wr_nth {A} (h : list A) l c k y : nth_error (wr h l c) k = Some y -> nth_error h k = Some y \/ (k = l /\ y = c).
Proof.
  revert l k. induction h as [|x h IH]; intros [|l] [|k] H; cbn in *; try discriminate; try (now left).
  - injection H as <-. now right.
  - apply IH in H as [H|[-> ->]]; [now left|now right].
Qed.
Lemma seg_set s0 s FP FR r f : seg s0 s FP FR -> In r FR ->
  (forall c q, (forall q', fst c = Some q' -> (q' < List.length (r_perms s))%nat) -> fst (f c) = Some q -> (q < List.length (r_perms s))%nat) ->
  seg s0 (set_cell s r f) FP FR.
Proof.
  intros S I Q. assert (S' := S). destruct S' as (W0' & (A1 & A2 & A3 & A4) & L & N1 & N2 & P & C & FPx & FRx).
  assert (NEW : seg s0 (MkR (r_perms s) (r_cells s ++ [f (None, None)])%list (r_pvar s) (upd (r_rvar s) r (Some (List.length (r_cells s)))) (r_list s)) FP FR).
  { assert (G := seg_new_cell s0 s FP FR r (f (None, None)) S (fun q => Q (None, None) q ltac:(discriminate))).
    destruct G as (G1 & G2 & G3 & G4 & G5 & G6 & G7 & G8 & G9). repeat (split; [assumption|]). intros x Hx. apply G9. now right. }
  unfold set_cell. destruct (r_rvar s r) as [l|] eqn:E; [|exact NEW]. destruct (pbr_isZero _); [exact NEW|].
  destruct (nth_error (r_cells s) l) as [c|] eqn:EC; [|exact S]. assert (LL := FRx r I l E).
  unfold seg, rwf. cbn [r_perms r_cells r_pvar r_rvar r_list]. rewrite wr_len.
  repeat apply conj; try exact L; try exact P; try assumption; try exact (proj1 W0'); try exact (proj1 (proj2 W0')); try exact (proj1 (proj2 (proj2 W0'))); try exact (proj2 (proj2 (proj2 W0'))).
  - intros k q b H. apply wr_nth in H as [H|[-> H]]; [now apply (A3 k q b)|]. apply (Q c q); [|now rewrite <- H].
    intros q' F. destruct c as [cp cb]. cbn in F. subst cp. now apply (A3 l q' cb).
  - intros k Lk. rewrite <- (C k Lk). apply (wr_other (r_cells s) l k). lia.
Qed.
Lemma seg_step s0 s FP FR c t : seg s0 s FP FR -> careful (c :: t) FP FR -> (forall r, c <> RPush r) ->
  exists FP' FR', seg s0 (rexec W s c) FP' FR' /\ careful t FP' FR'.
Proof.
  intros S CF NP. assert (S' := S). destruct S' as (W0' & (A1 & A2 & A3 & A4) & L & N1 & N2 & P & C & FPx & FRx).
  assert (Z1 := proj1 W0'). assert (Z2 := proj1 (proj2 W0')). assert (Z3 := proj1 (proj2 (proj2 W0'))). assert (Z4 := proj2 (proj2 (proj2 W0'))).
  destruct c as [x d xs|x y|x on xs|r x b|r q|r x|r b|r]; cbn [careful rexec] in *.
  - eexists; eexists. split; [|exact CF]. unfold seg, rwf. cbn [r_perms r_cells r_pvar r_rvar r_list]. rewrite app_length. cbn [List.length].
    repeat apply conj; try assumption; try lia.
    + intros y l. destruct (Nat.eq_dec y x) as [->|N]; [rewrite upd_same; intros [= <-]; lia|]. rewrite upd_other by exact N. intros E. apply A1 in E. lia.
    + intros l q b E. apply A3 in E. lia.
    + intros l Ll. rewrite nth_error_app1 by lia. now apply P.
    + intros y I l. destruct (Nat.eq_dec y x) as [->|N]; [rewrite upd_same; intros [= <-]; lia|]. rewrite upd_other by exact N.
      destruct I as [->|I]; [now destruct N|]. now apply FPx.
  - eexists; eexists. split; [|exact CF]. unfold seg, rwf. cbn [r_perms r_cells r_pvar r_rvar r_list]. repeat apply conj; try assumption.
    + intros z l. destruct (Nat.eq_dec z x) as [->|N]; [rewrite upd_same; apply A1|]. rewrite upd_other by exact N. apply A1.
    + intros z I l. destruct (existsb (Nat.eqb y) FP) eqn:EY.
      * apply existsb_in in EY. destruct (Nat.eq_dec z x) as [->|N]; [rewrite upd_same; now apply FPx|]. rewrite upd_other by exact N.
        destruct I as [->|I]; [now destruct N|]. now apply FPx.
      * apply in_without in I as [I N]. rewrite upd_other by exact N. now apply FPx.
  - destruct CF as [I CF]. exists FP, FR. split; [|exact CF].
    destruct (hcall (o_perm (sh W)) (r_perms s) (r_pvar s x) (on, xs)) as [[h p'] q] eqn:E.
    destruct (hcall_spec (o_perm (sh W)) (ok_perm (sh W)) _ _ _ _ _ _ (A1 x) E) as (LH & _ & _ & _ & _ & F & _).
    unfold seg, rwf. cbn [r_perms r_cells r_pvar r_rvar r_list]. repeat apply conj; try assumption; try lia.
    + intros y l H. apply A1 in H. lia.
    + intros l q' b H. apply A3 in H. lia.
    + intros l Ll. rewrite <- (P l Ll). assert (Ll' : (l < List.length (r_perms s))%nat) by lia. apply (F l Ll').
      intros _ X. apply (FPx x I) in X. lia.
  - destruct (pbr_valid _).
    + exists FP, (r :: FR). split; [|exact CF]. apply seg_new_cell; [exact S|]. intros q H. now apply (A1 x).
    + exists FP, (r :: FR). split; [|exact CF]. unfold seg, rwf. cbn [r_perms r_cells r_pvar r_rvar r_list]. repeat apply conj; try assumption.
      * intros z l. destruct (Nat.eq_dec z r) as [->|N]; [now rewrite upd_same|]. rewrite upd_other by exact N. apply A2.
      * intros z I l. destruct (Nat.eq_dec z r) as [->|N]; [now rewrite upd_same|]. rewrite upd_other by exact N. destruct I as [->|I]; [now destruct N|]. now apply FRx.
  - eexists; eexists. split; [|exact CF]. unfold seg, rwf. cbn [r_perms r_cells r_pvar r_rvar r_list]. repeat apply conj; try assumption.
    + intros z l. destruct (Nat.eq_dec z r) as [->|N]; [rewrite upd_same; apply A2|]. rewrite upd_other by exact N. apply A2.
    + intros z I l. destruct (existsb (Nat.eqb q) FR) eqn:EY.
      * apply existsb_in in EY. destruct (Nat.eq_dec z r) as [->|N]; [rewrite upd_same; now apply FRx|]. rewrite upd_other by exact N.
        destruct I as [->|I]; [now destruct N|]. now apply FRx.
      * apply in_without in I as [I N]. rewrite upd_other by exact N. now apply FRx.
  - destruct CF as [I CF]. exists FP, FR. split; [|exact CF]. apply seg_set; try assumption. intros c q Hc. destruct (perm_valid _); cbn; [apply A1|apply Hc].
  - destruct CF as [I CF]. exists FP, FR. split; [|exact CF]. apply seg_set; try assumption. intros c q Hc. destruct (bctx_valid _); cbn; apply Hc.
  - now destruct (NP r).
Qed.
Lemma seg_refl s : rwf s -> seg s s [] [].
Proof. intros Ws. repeat (split; [try exact Ws; try reflexivity; try lia|]); try exact Ws; try reflexivity; try lia; intros ? []. Qed.
Lemma careful_inv p : forall s0 s FP FR, seg s0 s FP FR -> careful p FP FR -> pl_inv W (rlist s) ->
  pl_inv W (rlist (rexec_all W s p)) /\ exists l, rlist (rexec_all W s p) = (rlist s ++ l)%list.
Proof.
  induction p as [|c p IH]; intros s0 s FP FR S CF I; [split; [exact I|exists []; now rewrite app_nil_r]|].
  change (rexec_all W s (c :: p)) with (rexec_all W (rexec W s c) p).
  assert (D : (exists r, c = RPush r) \/ forall r, c <> RPush r) by (destruct c; try (right; discriminate); left; now eexists).
  destruct D as [[r ->]|D].
  - cbn [careful rexec] in *. destruct S as (_ & Ws & _). destruct (pbrs_policy W _ _) eqn:E.
    + set (s' := MkR _ _ _ _ _). assert (RL : rlist s' = (rlist s ++ [rule_at s (r_rvar s r)])%list).
      { unfold s', rlist. cbn [r_list]. rewrite map_app. reflexivity. }
      assert (Ws' : rwf s').
      { destruct Ws as (A1 & A2 & A3 & A4). unfold rwf, s'. cbn [r_perms r_cells r_pvar r_rvar r_list]. repeat apply conj; try assumption.
        intros l H. apply in_app_iff in H as [H|[H|[]]]; [now apply A4|now apply (A2 r)]. }
      assert (I' : pl_inv W (rlist s')).
      { assert (G := pl_push1_inv W (rlist s) (PLRule (rule_at s (r_rvar s r))) I). cbn [pbrs_push1] in G. unfold push1 in G.
        unfold rlist in G at 1. rewrite E in G. now rewrite RL. }
      destruct (IH s' s' [] [] (seg_refl s' Ws') CF I') as [J [l EL]]. split; [exact J|]. exists (rule_at s (r_rvar s r) :: l). now rewrite EL, RL, <- app_assoc.
    + apply (IH s s [] []); [now apply seg_refl|exact CF|exact I].
  - destruct (seg_step s0 s FP FR c p S CF D) as (FP' & FR' & S2 & CF'). assert (RL : rlist (rexec W s c) = rlist s).
    { rewrite (seg_list _ _ _ _ S), (seg_list _ _ _ _ S2). reflexivity. }
    rewrite <- RL. apply (IH s0 (rexec W s c) FP' FR' S2 CF'). now rewrite RL.
Qed.
Lemma rwf_push s r : rwf s -> rwf (rexec W s (RPush r)).
Proof.
  intros Ws. cbn [rexec]. destruct (pbrs_policy W _ _); [|exact Ws]. destruct Ws as (A1 & A2 & A3 & A4). unfold rwf.
  cbn [r_perms r_cells r_pvar r_rvar r_list]. repeat apply conj; try assumption. intros l H. apply in_app_iff in H as [H|[H|[]]]; [now apply A4|now apply (A2 r)].
Qed.
Lemma rwf_exec s c : rwf s -> rwf (rexec W s c).
Proof.
  intros Ws. assert (S := seg_refl s Ws). assert (D : (exists r, c = RPush r) \/ forall r, c <> RPush r) by (destruct c; try (right; discriminate); left; now eexists).
  destruct D as [[r ->]|D]; [now apply rwf_push|]. destruct Ws as (A1 & A2 & A3 & A4). 
  assert (NEW : forall r c, (forall q, fst c = Some q -> (q < List.length (r_perms s))%nat) ->
    rwf (MkR (r_perms s) (r_cells s ++ [c])%list (r_pvar s) (upd (r_rvar s) r (Some (List.length (r_cells s)))) (r_list s))).
  { intros r c0 Q. now apply (seg_new_cell s s [] [] r c0 S Q). }
  assert (SET : forall r f, (forall c q, (forall q', fst c = Some q' -> (q' < List.length (r_perms s))%nat) -> fst (f c) = Some q -> (q < List.length (r_perms s))%nat) -> rwf (set_cell s r f)).
  { intros r f Q. assert (N := NEW r (f (None, None)) (fun q => Q (None, None) q ltac:(discriminate))). unfold set_cell. destruct (r_rvar s r) as [l|] eqn:E; [|exact N].
    destruct (pbr_isZero _); [exact N|]. destruct (nth_error (r_cells s) l) as [c0|] eqn:EC; [|now repeat split].
    unfold rwf. cbn [r_perms r_cells r_pvar r_rvar r_list]. rewrite wr_len. repeat apply conj; try assumption.
    intros k q b H. apply wr_nth in H as [H|[-> H]]; [now apply (A3 k q b)|]. apply (Q c0 q); [|now rewrite <- H].
    intros q' F. destruct c0 as [cp cb]. cbn in F. subst cp. now apply (A3 l q' cb). }
  destruct c as [x d xs|x y|x on xs|r x b|r q|r x|r b|r]; cbn [rexec].
  - unfold rwf. cbn [r_perms r_cells r_pvar r_rvar r_list]. rewrite app_length. cbn [List.length]. repeat apply conj; try assumption.
    + intros y l. destruct (Nat.eq_dec y x) as [->|N]; [rewrite upd_same; intros [= <-]; lia|]. rewrite upd_other by exact N. intros E. apply A1 in E. lia.
    + intros l q b E. apply A3 in E. lia.
  - unfold rwf. cbn [r_perms r_cells r_pvar r_rvar r_list]. repeat apply conj; try assumption.
    intros z l. destruct (Nat.eq_dec z x) as [->|N]; [rewrite upd_same; apply A1|]. rewrite upd_other by exact N. apply A1.
  - destruct (hcall (o_perm (sh W)) (r_perms s) (r_pvar s x) (on, xs)) as [[h p'] q] eqn:E.
    destruct (hcall_spec (o_perm (sh W)) (ok_perm (sh W)) _ _ _ _ _ _ (A1 x) E) as (LH & _).
    unfold rwf. cbn [r_perms r_cells r_pvar r_rvar r_list]. repeat apply conj; try assumption.
    + intros y l H. apply A1 in H. lia.
    + intros l q' b H. apply A3 in H. lia.
  - destruct (pbr_valid _); [apply NEW; intros q; apply A1|]. unfold rwf. cbn [r_perms r_cells r_pvar r_rvar r_list]. repeat apply conj; try assumption.
    intros z l. destruct (Nat.eq_dec z r) as [->|N]; [now rewrite upd_same|]. rewrite upd_other by exact N. apply A2.
  - unfold rwf. cbn [r_perms r_cells r_pvar r_rvar r_list]. repeat apply conj; try assumption.
    intros z l. destruct (Nat.eq_dec z r) as [->|N]; [rewrite upd_same; apply A2|]. rewrite upd_other by exact N. apply A2.
  - apply SET. intros c q Hc. destruct (perm_valid _); cbn; [apply A1|apply Hc].
  - apply SET. intros c q Hc. destruct (bctx_valid _); cbn; apply Hc.
  - now destruct (D r).
Qed.
Lemma careful_mid p : forall q s0 s FP FR, seg s0 s FP FR -> careful (p ++ q)%list FP FR ->
  exists s0' FP' FR', seg s0' (rexec_all W s p) FP' FR' /\ careful q FP' FR'.
Proof.
  induction p as [|c p IH]; intros q s0 s FP FR S CF; [now exists s0, FP, FR|]. change (rexec_all W s (c :: p)) with (rexec_all W (rexec W s c) p).
  assert (D : (exists r, c = RPush r) \/ forall r, c <> RPush r) by (destruct c; try (right; discriminate); left; now eexists).
  destruct D as [[r ->]|D].
  - apply (IH q (rexec W s (RPush r)) (rexec W s (RPush r)) [] []); [|exact CF]. apply seg_refl, rwf_push. apply S.
  - destruct (seg_step s0 s FP FR c (p ++ q)%list S CF D) as (FP' & FR' & S2 & CF'). now apply (IH q s0 (rexec W s c) FP' FR').
Qed.
Lemma rwf_start : rwf rstart.
Proof.
  split; [|split; [|split]].
  - intros x l E; discriminate E.
  - intros x l E; discriminate E.
  - intros [|l] q b E; discriminate E.
  - intros l [].
Qed.
End RuleHeap.
(* false: a Shift on the permission changes the rule made with it, and two members
   of a list can become equal *)
Theorem C87_refuted :
  ~ (forall W p x on xs r, rlook (rexec_all W rstart (p ++ [RShift x on xs])%list) r = rlook (rexec_all W rstart p) r) /\
  ~ (forall W p, (forall s, e_eqf (w_env W) s s = true) -> distinct_by (same_pbr W) (rlist (rexec_all W rstart p))) /\
  ~ (forall W p q, exists l, rlist (rexec_all W rstart (p ++ q)%list) = (rlist (rexec_all W rstart p) ++ l)%list).
Proof.
  repeat apply conj; intros H.
  - specialize (H W0 [RPerm 0 true [MRights.AStr "read"]; RRule 0 0 (Some (BCRule (Some cB)))] 0%nat true [MRights.AStr "write"] 0%nat). vm_compute in H. discriminate H.
  - specialize (H W0 [RPerm 0 true [MRights.AStr "read"]; RRule 0 0 (Some (BCRule (Some cB))); RPush 0; RPerm 1 true [MRights.AStr "read"; MRights.AStr "write"]; RRule 1 1 (Some (BCRule (Some cB))); RPush 1; RShift 0 true [MRights.AStr "write"]]
      (fun s => String.eqb_refl _)). assert (F := fop_pairs _ _ H 0%nat 1%nat _ _ eq_refl eq_refl ltac:(lia)). vm_compute in F. discriminate F.
  - destruct (H W0 [RPerm 0 true [MRights.AStr "read"]; RRule 0 0 (Some (BCRule (Some cB))); RPush 0] [RShift 0 true [MRights.AStr "write"]]) as [l E]. vm_compute in E. discriminate E.
Qed.
(* exactly: a Shift changes every rule that holds the permission's pointer, by that
   Shift, and no other rule, whether held by a variable or by the list *)
Theorem C87_shift : forall W p x on xs ptr, let s := rexec_all W rstart p in let s' := rexec W s (RShift x on xs) in
  (In ptr (r_list s) \/ exists r, ptr = r_rvar s r) ->
  rule_at s' ptr =
    match rule_at s ptr, rd (r_cells s) ptr with
    | Some (MkPB q b), Some (Some l, _) =>
        if match r_pvar s x with Some k => (k =? l)%nat | None => false end
        then Some (MkPB (if on then perm_shift (sh W) q xs else perm_unshift (sh W) q xs) b) else Some (MkPB q b)
    | v, _ => v
    end.
Proof.
  intros W p x on xs ptr s s' _. assert (Ws : rwf s).
  { unfold s. clear. assert (G : forall p s, rwf s -> rwf (rexec_all W s p)); [|apply G, rwf_start]. clear. induction p as [|c p IH]; intros s Ws; [exact Ws|].
    change (rexec_all W s (c :: p)) with (rexec_all W (rexec W s c) p). apply IH. now apply rwf_exec. }
  unfold s'. cbn [rexec]. destruct (hcall (o_perm (sh W)) (r_perms s) (r_pvar s x) (on, xs)) as [[h p'] q] eqn:E.
  unfold rule_at. cbn [r_cells r_perms]. destruct (rd (r_cells s) ptr) as [[pq b]|] eqn:C; [|reflexivity]. destruct pq as [l|]; [|reflexivity].
  destruct Ws as (A1 & _ & A3 & _). assert (L : (l < List.length (r_perms s))%nat) by (destruct ptr as [k|]; [now apply (A3 k l b)|discriminate C]).
  destruct (hcall_spec _ (ok_perm (sh W)) _ _ _ _ _ _ (A1 x) E) as (_ & _ & _ & R & _ & F & _ & _ & KP).
  destruct (r_pvar s x) as [k|] eqn:X.
  - destruct (rd_some (r_perms s) k (A1 x k X)) as [[d n] V]. rewrite V in *. destruct (KP eq_refl) as [-> _]. destruct (Nat.eqb_spec k l) as [->|N].
    + rewrite R, V. unfold after. cbn [o_keeps o_perm orb o_set fst snd perm_of]. now destruct on.
    + rewrite (F l L); [reflexivity|]. intros _ [= ->]. now destruct N.
  - rewrite (F l L); [reflexivity|]. discriminate.
Qed.
(* true of programs that change no permission or rule made before the last Push *)
Theorem C87_partial : forall W p, careful p [] [] ->
  (forall r, In r (rlist (rexec_all W rstart p)) -> pbr_valid r = true) /\ distinct_by (same_pbr W) (rlist (rexec_all W rstart p)).
Proof. intros W p C. apply (careful_inv W p rstart rstart [] []); [apply seg_refl, rwf_start|exact C|apply pl_nil]. Qed.
Theorem C87_kept_partial : forall W p q, careful (p ++ q)%list [] [] ->
  exists l, rlist (rexec_all W rstart (p ++ q)%list) = (rlist (rexec_all W rstart p) ++ l)%list.
Proof.
  intros W p q C. destruct (careful_mid W p q rstart rstart [] [] (seg_refl _ rwf_start) C) as (s0 & FP & FR & S & CF).
  unfold rexec_all at 1. rewrite fold_left_app. fold (rexec_all W rstart p). apply (careful_inv W q s0 _ FP FR S CF).
  destruct (careful_inv W p rstart rstart [] [] (seg_refl _ rwf_start)) as [J _]; [|apply pl_nil|exact J].
  clear - C. revert C. generalize (@nil nat) at 1 3. generalize (@nil nat). induction p as [|c p IH]; intros FP FR C; [exact I|].
  destruct c; cbn [careful app] in *; try (now apply IH); destruct C as [I1 C]; split; try exact I1; now apply IH.
Qed.
Print Assumptions C87_refuted.
Print Assumptions C87_shift.
Print Assumptions C87_partial.
Print Assumptions C87_kept_partial.
Example C87_witness :
  careful [RPerm 0 true [MRights.AStr "read"]; RShift 0 true [MRights.AStr "search"]; RRule 0 0 (Some (BCRule (Some cA))); RPush 0; RPerm 0 true [MRights.AStr "write"]; RRule 1 0 (Some (BCRule (Some cB))); RSetB 1 (BCRule (Some cA)); RPush 1] [] [] /\
  List.length (rlist (rexec_all W0 rstart [RPerm 0 true [MRights.AStr "read"]; RShift 0 true [MRights.AStr "search"]; RRule 0 0 (Some (BCRule (Some cA))); RPush 0; RPerm 0 true [MRights.AStr "write"]; RRule 1 0 (Some (BCRule (Some cB))); RSetB 1 (BCRule (Some cA)); RPush 1])) = 2%nat.
Proof. split; [cbn; tauto|vm_compute; reflexivity]. Qed.

(* ---- C88: a list of names keeps its members ---- *)
Section NameHeap.
Variable eqf : string -> string -> bool.
Variable kw : N.
Definition nwf (s : nstate) : Prop := wf (n_st s) /\ forall l, In (Some l) (n_list s) -> (l < List.length (st_heap (n_st s)))%nat.
Definition nseg (s0 s : nstate) (F : list nat) : Prop :=
  nwf s0 /\ nwf s /\ n_list s = n_list s0 /\ (List.length (st_heap (n_st s0)) <= List.length (st_heap (n_st s)))%nat /\
  (forall l, (l < List.length (st_heap (n_st s0)))%nat -> rd (st_heap (n_st s)) (Some l) = rd (st_heap (n_st s0)) (Some l)) /\
  (forall x, In x F -> forall l, st_var (n_st s) x = Some l -> (List.length (st_heap (n_st s0)) <= l)%nat).
Lemma nseg_names s0 s F : nseg s0 s F -> names s = names s0.
Proof.
  intros ((_ & W2) & _ & L & _ & H & _). unfold names. rewrite L. apply map_ext_in. intros [l|] I; [|reflexivity]. f_equal. apply H. now apply W2.
Qed.
Lemma nseg_refl s : nwf s -> nseg s s [].
Proof. intros Ws. split; [exact Ws|]. split; [exact Ws|]. repeat (split; [reflexivity || lia|]). intros x []. Qed.
Lemma nseg_step s0 s F c t : nseg s0 s F -> ncareful (NDo c :: t) F ->
  exists F', nseg s0 (nexec eqf kw s (NDo c)) F' /\ ncareful t F'.
Proof.
  intros (V0 & (V1 & V2) & L & N & H & FX) CF. assert (V1' : wf (exec o_bdn (n_st s) c)) by (apply wf_exec; [apply ok_bdn|exact V1]).
  assert (G : forall F', (List.length (st_heap (n_st s)) <= List.length (st_heap (exec o_bdn (n_st s) c)))%nat ->
      (forall l, (l < List.length (st_heap (n_st s0)))%nat -> rd (st_heap (exec o_bdn (n_st s) c)) (Some l) = rd (st_heap (n_st s)) (Some l)) ->
      (forall x, In x F' -> forall l, st_var (exec o_bdn (n_st s) c) x = Some l -> (List.length (st_heap (n_st s0)) <= l)%nat) ->
      nseg s0 (nexec eqf kw s (NDo c)) F').
  { intros F' G1 G2 G3. unfold nseg, nwf. cbn [nexec n_st n_list]. split; [exact V0|]. split; [split; [exact V1'|intros l I; apply V2 in I; lia]|].
    split; [exact L|]. split; [lia|]. split; [|exact G3]. intros l Ll. rewrite (G2 l Ll). now apply H. }
  destruct c as [x v|x y|x a|z x a]; cbn [ncareful] in CF.
  - exists (x :: F). split; [|exact CF]. apply G; cbn [exec]; destruct v as [c|]; cbn [alloc st_heap st_var].
    + rewrite app_length. lia.
    + lia.
    + intros l Ll. apply rd_app. lia.
    + reflexivity.
    + intros y I l. destruct (Nat.eq_dec y x) as [->|Ny]; [rewrite upd_same; intros [= <-]; lia|]. rewrite upd_other by exact Ny. destruct I as [->|I]; [now destruct Ny|now apply FX].
    + intros y I l. destruct (Nat.eq_dec y x) as [->|Ny]; [now rewrite upd_same|]. rewrite upd_other by exact Ny. destruct I as [->|I]; [now destruct Ny|now apply FX].
  - eexists. split; [|exact CF]. apply G; cbn [exec st_heap st_var]; [lia|reflexivity|]. intros w I l. destruct (existsb (Nat.eqb y) F) eqn:EY.
    + apply existsb_in in EY. destruct (Nat.eq_dec w x) as [->|Nw]; [rewrite upd_same; now apply FX|]. rewrite upd_other by exact Nw. destruct I as [->|I]; [now destruct Nw|now apply FX].
    + apply in_without in I as [I Nw]. rewrite upd_other by exact Nw. now apply FX.
  - destruct CF as [I CF]. exists F. split; [|exact CF]. destruct (hcall o_bdn (st_heap (n_st s)) (st_var (n_st s) x) a) as [[h p'] q] eqn:E.
    destruct (hcall_spec _ ok_bdn _ _ _ _ _ _ (V1 x) E) as (LH & _ & _ & _ & _ & FR & P & _). apply G; cbn [exec]; rewrite E; cbn [st_heap st_var].
    + exact LH.
    + intros l Ll. apply FR; [lia|]. intros _ X. apply (FX x I) in X. lia.
    + intros y J l. destruct (Nat.eq_dec y x) as [->|Ny]; [rewrite upd_same|rewrite upd_other by exact Ny; now apply FX].
      intros X. destruct P as [P|[P _]]; rewrite P in X; [now apply (FX x I)|]. injection X as <-. lia.
  - destruct CF as [I CF]. exists (z :: F). split; [|exact CF]. destruct (hcall o_bdn (st_heap (n_st s)) (st_var (n_st s) x) a) as [[h p'] q] eqn:E.
    destruct (hcall_spec _ ok_bdn _ _ _ _ _ _ (V1 x) E) as (LH & _ & _ & _ & _ & FR & P & Q & _). apply G; cbn [exec]; rewrite E; cbn [st_heap st_var].
    + exact LH.
    + intros l Ll. apply FR; [lia|]. intros _ X. apply (FX x I) in X. lia.
    + assert (PX : forall l, p' = Some l -> (List.length (st_heap (n_st s0)) <= l)%nat).
      { intros l X. destruct P as [P|[P _]]; rewrite P in X; [now apply (FX x I)|]. injection X as <-. lia. }
      intros y J l. destruct (Nat.eq_dec y z) as [->|Ny].
      * rewrite upd_same. intros X. destruct Q as [Q|[Q|[Q _]]]; rewrite Q in X; [now apply PX|now apply (FX x I)|]. injection X as <-. lia.
      * rewrite upd_other by exact Ny. destruct J as [->|J]; [now destruct Ny|]. destruct (Nat.eq_dec y x) as [->|Nx]; [rewrite upd_same; apply PX|rewrite upd_other by exact Nx; now apply FX].
Qed.
Lemma push_names s x : names (nexec eqf kw s (NPush x)) = dn_push eqf badBDN true kw (names s) [DDN (look (n_st s) x)].
Proof.
  cbn [nexec dn_push]. destruct (push_cast true kw (DDN (look (n_st s) x))) as [m|] eqn:E; [|reflexivity]. unfold push1.
  destruct (dn_policy eqf badBDN (names s) m); [|reflexivity]. unfold names. cbn [n_list n_st]. rewrite map_app. cbn [map].
  cbn [push_cast] in E. destruct (_ && _)%bool; [|discriminate E]. injection E as <-. reflexivity.
Qed.
Lemma nwf_push s x : nwf s -> nwf (nexec eqf kw s (NPush x)).
Proof.
  intros [V1 V2]. cbn [nexec]. destruct (push_cast _ _ _) as [m|]; [|now split]. destruct (dn_policy _ _ _ _); [|now split].
  split; [exact V1|]. cbn [n_list n_st]. intros l I. apply in_app_iff in I as [I|[I|[]]]; [now apply V2|now apply (V1 x)].
Qed.
Lemma ncareful_inv p : forall s0 s F, nseg s0 s F -> ncareful p F -> dn_inv eqf badBDN true kw (names s) ->
  dn_inv eqf badBDN true kw (names (nexec_all eqf kw s p)) /\ exists l, names (nexec_all eqf kw s p) = (names s ++ l)%list.
Proof.
  induction p as [|c p IH]; intros s0 s F S CF I; [split; [exact I|exists []; now rewrite app_nil_r]|].
  change (nexec_all eqf kw s (c :: p)) with (nexec_all eqf kw (nexec eqf kw s c) p). destruct c as [c|x].
  - destruct (nseg_step s0 s F c p S CF) as (F' & S2 & CF'). assert (RL : names (nexec eqf kw s (NDo c)) = names s).
    { rewrite (nseg_names _ _ _ S), (nseg_names _ _ _ S2). reflexivity. }
    rewrite <- RL. apply (IH s0 _ F' S2 CF'). now rewrite RL.
  - assert (Ws := nwf_push s x (proj1 (proj2 S))). assert (RL := push_names s x).
    assert (I' := dn_push_inv eqf badBDN true kw [DDN (look (n_st s) x)] (names s) I). rewrite <- RL in I'.
    destruct (IH _ _ [] (nseg_refl _ Ws) CF I') as [J [l EL]]. split; [exact J|]. rewrite EL, RL. cbn [dn_push].
    destruct (push_cast _ _ _) as [m|]; [|now exists l]. unfold push1. destruct (dn_policy _ _ _ _); [|now exists l]. exists (m :: l). now rewrite <- app_assoc.
Qed.
Lemma ncareful_mid p : forall q s0 s F, nseg s0 s F -> ncareful (p ++ q)%list F ->
  exists s0' F', nseg s0' (nexec_all eqf kw s p) F' /\ ncareful q F'.
Proof.
  induction p as [|c p IH]; intros q s0 s F S CF; [now exists s0, F|]. change (nexec_all eqf kw s (c :: p)) with (nexec_all eqf kw (nexec eqf kw s c) p).
  destruct c as [c|x].
  - destruct (nseg_step s0 s F c (p ++ q)%list S CF) as (F' & S2 & CF'). now apply (IH q s0 _ F').
  - apply (IH q (nexec eqf kw s (NPush x)) _ []); [|exact CF]. apply nseg_refl, nwf_push. apply S.
Qed.
Lemma nwf_start : nwf nstart.
Proof. split; [apply wf_start|intros l []]. Qed.
Lemma names_inv_nil : dn_inv eqf badBDN true kw (names nstart).
Proof. split; [constructor|easy]. Qed.
End NameHeap.
Theorem C88_refuted :
  ~ (forall p, distinct_by (fun x y => eqfold (dmember_string badBDN x) (dmember_string badBDN y)) (names (nexec_all eqfold BindUDN nstart p))) /\
  ~ (forall p q, exists l, names (nexec_all eqfold BindUDN nstart (p ++ q)%list) = (names (nexec_all eqfold BindUDN nstart p) ++ l)%list).
Proof.
  split; intros H.
  - specialize (H [NDo (CNew 0 (UDN "cn=a")); NPush 0; NDo (CNew 1 (UDN "cn=b")); NPush 1; NDo (CCall 0 ("cn=b", []))]).
    assert (F := fop_pairs _ _ H 0%nat 1%nat _ _ eq_refl eq_refl ltac:(lia)). vm_compute in F. discriminate F.
  - destruct (H [NDo (CNew 0 (UDN "cn=a")); NPush 0] [NDo (CCall 0 ("cn=b", []))]) as [l E]. vm_compute in E. discriminate E.
Qed.
(* exactly: Push adds the variable's pointer, and a Set changes the members that hold
   the pointer of its receiver and no other *)
Theorem C88_set : forall eqf kw p x a ptr, let s := nexec_all eqf kw nstart p in let s' := nexec eqf kw s (NDo (CCall x a)) in
  In ptr (n_list s) ->
  rd (st_heap (n_st s')) ptr =
    if (match ptr, st_var (n_st s) x with Some k, Some l => (k =? l)%nat | _, _ => false end && negb (dn_isZero (look (n_st s) x)))%bool
    then bdn_set (look (n_st s) x) (fst a) (snd a) else rd (st_heap (n_st s)) ptr.
Proof.
  intros eqf kw p x a ptr s s' I. assert (Ws : nwf s).
  { unfold s. clear. assert (G : forall p s, nwf s -> nwf (nexec_all eqf kw s p)); [|apply G, nwf_start]. clear. induction p as [|c p IH]; intros s Ws; [exact Ws|].
    change (nexec_all eqf kw s (c :: p)) with (nexec_all eqf kw (nexec eqf kw s c) p). apply IH. destruct c as [c|x]; [|now apply nwf_push]. destruct Ws as [V1 V2]. split.
    - cbn [nexec n_st]. apply wf_exec; [apply ok_bdn|exact V1].
    - cbn [nexec n_st n_list]. intros l I. apply V2 in I. assert (Q := heap_grows o_bdn ok_bdn (n_st s) c V1). lia. }
  unfold s'. cbn [nexec n_st exec]. destruct (hcall o_bdn (st_heap (n_st s)) (st_var (n_st s) x) a) as [[h p'] q] eqn:E. destruct Ws as [V1 V2].
  destruct (hcall_spec _ ok_bdn _ _ _ _ _ _ (V1 x) E) as (_ & _ & _ & R & _ & F & _ & _ & KP). cbn [st_heap].
  destruct ptr as [k|]; [|reflexivity]. assert (L := V2 k I). destruct (st_var (n_st s) x) as [l|] eqn:X.
  - unfold look. rewrite X. cbn [o_keeps o_bdn] in *. destruct (Nat.eqb_spec k l) as [->|N].
    + cbn [andb]. destruct (dn_isZero (rd (st_heap (n_st s)) (Some l))) eqn:Z; cbn [negb] in *.
      * apply (F l L). discriminate.
      * destruct (KP eq_refl) as [-> _]. rewrite R. unfold after. cbn [o_keeps o_bdn o_set o_ptr]. rewrite Z. cbn [negb orb].
        destruct (rd_some (st_heap (n_st s)) l L) as [c ->]. reflexivity.
    + cbn [andb]. apply (F k L). intros _ [= ->]. now destruct N.
  - cbn [andb]. apply (F k L). discriminate.
Qed.
Theorem C88_partial : forall eqf kw p, ncareful p [] -> let l := names (nexec_all eqf kw nstart p) in
  distinct_by (fun x y => eqf (dmember_string badBDN x) (dmember_string badBDN y)) l /\
  (forall m, In m l -> exists s, m = MDN (Some (MkDN kw (Some s)))).
Proof.
  intros eqf kw p C l. destruct (ncareful_inv eqf kw p nstart nstart [] (nseg_refl _ nwf_start) C (names_inv_nil eqf kw)) as [[D K] _]. split; [exact D|].
  intros m I. destruct (K m I) as [H|[_ [t ->]]]; [exact H|]. unfold l, names in I. apply in_map_iff in I as (q & Q & _). discriminate Q.
Qed.
Theorem C88_kept_partial : forall eqf kw p q, ncareful (p ++ q)%list [] ->
  exists l, names (nexec_all eqf kw nstart (p ++ q)%list) = (names (nexec_all eqf kw nstart p) ++ l)%list.
Proof.
  intros eqf kw p q C. destruct (ncareful_mid eqf kw p q nstart nstart [] (nseg_refl _ nwf_start) C) as (s0 & F & S & CF).
  unfold nexec_all at 1. rewrite fold_left_app. fold (nexec_all eqf kw nstart p). apply (ncareful_inv eqf kw q s0 _ F S CF).
  destruct (ncareful_inv eqf kw p nstart nstart [] (nseg_refl _ nwf_start)) as [J _]; [|apply names_inv_nil|exact J].
  clear - C. revert C. generalize (@nil nat). induction p as [|c p IH]; intros F C; [exact I|].
  destruct c as [c|]; [destruct c|]; cbn [ncareful app] in *; try (now apply IH); destruct C as [I1 C]; split; try exact I1; now apply IH.
Qed.
Print Assumptions C88_refuted.
Print Assumptions C88_set.
Print Assumptions C88_partial.
Print Assumptions C88_kept_partial.
Example C88_witness :
  ncareful [NDo (CNew 0 (UDN "cn=a")); NDo (CCall 0 ("cn=c", [])); NPush 0; NDo (CNew 0 (UDN "cn=b")); NDo (CCopy 1 0); NDo (CCall 1 ("cn=d", [])); NPush 0] [] /\
  names (nexec_all eqfold BindUDN nstart [NDo (CNew 0 (UDN "cn=a")); NDo (CCall 0 ("cn=c", [])); NPush 0; NDo (CNew 0 (UDN "cn=b")); NDo (CCopy 1 0); NDo (CCall 1 ("cn=d", [])); NPush 0])
  = [MDN (UDN "cn=c"); MDN (UDN "cn=d")].
Proof. split; [cbn; tauto|vm_compute; reflexivity]. Qed.
