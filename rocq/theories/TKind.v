(* C143: Kind names the keyword, in every history. *)
From Coq Require Import String List NArith PeanoNat Bool.
From Verif Require Import GoStr MKw MAttr MLists MFilter MNet MUri MMeth MInfo MKind SKw SKind.
Import ListNotations.
Open Scope string_scope.

Section Lists.
Variable eqf : string -> string -> bool.
Variable dotnot : string -> option string.

Lemma push_kw r xs : In (ol_kw r) [TargetExtOp; TargetCtrl] -> In (ol_kw (oid_push eqf dotnot r xs)) [TargetExtOp; TargetCtrl].
Proof.
  revert r. induction xs as [|x xs IH]; intros r K; [exact K|]. apply IH. destruct x as [s|o|k|]; try exact K.
  cbn [oid_push1 ol_kw]. destruct ((k =? TargetExtOp) || (k =? TargetCtrl))%N%bool eqn:B; [|exact K].
  destruct (_ =? 0)%nat; [|exact K]. cbn [andb]. rewrite orb_true_iff, !N.eqb_eq in B. cbn. intuition.
Qed.
Lemma step_kw r c : In (ol_kw r) [TargetExtOp; TargetCtrl] -> In (ol_kw (oid_step eqf dotnot r c)) [TargetExtOp; TargetCtrl].
Proof. destruct c as [xs|]; [apply push_kw|easy]. Qed.
Lemma run_kw kw init h : In kw [TargetExtOp; TargetCtrl] -> In (ol_kw (oid_run eqf dotnot kw init h)) [TargetExtOp; TargetCtrl].
Proof.
  intros K. unfold oid_run. assert (A := push_kw (MkOL kw []) init K). revert A. generalize (oid_push eqf dotnot (MkOL kw []) init).
  induction h as [|c h IH]; intros r A; [exact A|]. apply IH, step_kw, A.
Qed.

(* Lists of identifiers: after every history of Push and Pop, Kind is the name of the
   keyword Keyword returns, which is one of the two; the list is valid. *)
Theorem C143_identifiers : forall kw init h,
  In kw [targetkw_const TgExtOp; targetkw_const TgCtrl] ->
  let l := Some (oid_run eqf dotnot kw init h) in
  target_kind (oids_Keyword l) (oids_Kind l) /\ In (oids_Kind l) ["extop"; "targetcontrol"] /\ oids_Valid l = true /\ oids_ID l = "target".
Proof.
  intros kw init h K. pose proof (run_kw kw init h K) as R. revert R. generalize (oid_run eqf dotnot kw init h). intros [k m] R.
  cbn [ol_kw] in R. destruct R as [<-|[<-|[]]]; (split; [|split; [cbn; tauto|split; reflexivity]]).
  - exists TgExtOp. split; reflexivity.
  - exists TgCtrl. split; reflexivity.
Qed.
(* what the constructor was called for stays, unless the other keyword is pushed *)
Theorem C143_constructor : forall kw init h,
  In kw [targetkw_const TgExtOp; targetkw_const TgCtrl] ->
  (forall x, In x init -> forall k, x = OKey k -> ~ In k [targetkw_const TgExtOp; targetkw_const TgCtrl] \/ k = kw) ->
  (forall xs, In (OPush xs) h -> forall x, In x xs -> forall k, x = OKey k -> ~ In k [targetkw_const TgExtOp; targetkw_const TgCtrl] \/ k = kw) ->
  oids_Keyword (Some (oid_run eqf dotnot kw init h)) = kw.
Proof.
  intros kw init h K I H.
  assert (P : forall xs, (forall x, In x xs -> forall k, x = OKey k -> ~ In k [TargetExtOp; TargetCtrl] \/ k = kw) ->
    forall r, ol_kw r = kw -> ol_kw (oid_push eqf dotnot r xs) = kw).
  { induction xs as [|x xs IH]; intros X r E; [exact E|]. apply IH; [intros y Y; apply X; now right|].
    specialize (X x (or_introl eq_refl)). destruct x as [s|o|k|]; try exact E. cbn [oid_push1 ol_kw].
    destruct ((k =? TargetExtOp) || (k =? TargetCtrl))%N%bool eqn:B; [|exact E]. destruct (_ =? 0)%nat; [|exact E]. cbn [andb].
    rewrite orb_true_iff, !N.eqb_eq in B. destruct (X k eq_refl) as [N| ->]; [|reflexivity]. exfalso. apply N. cbn. intuition. }
  assert (E : ol_kw (oid_run eqf dotnot kw init h) = kw).
  { unfold oid_run. assert (A : ol_kw (oid_push eqf dotnot (MkOL kw []) init) = kw) by (apply P; [exact I|reflexivity]).
    revert A. generalize (oid_push eqf dotnot (MkOL kw []) init). induction h as [|c h IH]; intros r A; [exact A|].
    apply IH; [intros xs X; apply H; now right|]. destruct c as [xs|]; [|exact A]. cbn [oid_step]. apply P; [|exact A]. apply H. now left. }
  cbn [oids_Keyword]. unfold ol_kind. rewrite E. destruct K as [<-|[<-|[]]]; reflexivity.
Qed.
(* False: pushing the other keyword on an empty list changes what the list is for. *)
Theorem C143_changes_refuted :
  oids_Kind (Some (oid_run eqf dotnot (targetkw_const TgExtOp) [] [])) = "extop" /\
  oids_Kind (Some (oid_run eqf dotnot (targetkw_const TgExtOp) [] [OPush [OKey (targetkw_const TgCtrl)]])) = "targetcontrol" /\
  oids_Kind (Some (oid_run eqf dotnot (targetkw_const TgExtOp) [] [OPush [OKey (targetkw_const TgCtrl)]; OPop])) = "targetcontrol".
Proof. repeat split. Qed.
End Lists.

(* Single identifiers, attribute lists of rules, addresses, filter operations: Kind is
   the name of what Keyword returns; what was never initialised says so. *)
Theorem C143_values :
  (forall k t, In k [TgExtOp; TgCtrl] -> oid_Keyword (Some (MkOID (targetkw_const k) (Some t))) = Some (targetkw_const k) /\
     oid_Kind (Some (MkOID (targetkw_const k) (Some t))) = targetkw_name k) /\
  (forall m, target_kind (ats_Keyword (Some (true, m))) (ats_Kind (Some (true, m))) /\ ats_Valid (Some (true, m)) = true) /\
  (forall a, bind_kind (ip_Keyword a) (ip_Kind a)) /\
  (forall o, target_kind (afo_Keyword o) (afo_Kind o)) /\
  (forall o, target_kind (afos_Keyword o) (afos_Kind o)) /\
  (forall u, (luri_Keyword u = None -> luri_Kind u = "") /\ (forall k, luri_Keyword u = Some k -> bind_kind k (luri_Kind u))).
Proof.
  split; [intros k t [<-|[<-|[]]]; split; reflexivity|]. split; [intros m; split; [now exists TgAttr|reflexivity]|].
  split; [intros a; now exists IPAddr|]. split; [intros o; now exists TgAttrFilters|]. split; [intros o; now exists TgAttrFilters|].
  intros u. unfold luri_Kind. split; [now intros ->|]. intros k E. rewrite E.
  assert (K : In k [BindUAT; BindGAT; BindGDN; BindRDN; BindUDN]).
  { destruct u as [u|]; [|discriminate]. cbn [luri_Keyword] in E. unfold uri_keyword in E. destruct (negb (uri_valid u)); [discriminate|].
    destruct (negb _).
    - destruct ((_ =? BindUAT) || (_ =? BindGAT))%N%bool eqn:B; [|discriminate]. injection E as <-. rewrite orb_true_iff, !N.eqb_eq in B. cbn. intuition.
    - destruct (u_dn u) as [d|]; [|discriminate]. destruct ((_ =? BindGDN) || (_ =? BindRDN) || (_ =? BindUDN))%N%bool eqn:B; [|discriminate].
      injection E as <-. rewrite !orb_true_iff, !N.eqb_eq in B. cbn. intuition. }
  destruct K as [<-|[<-|[<-|[<-|[<-|[]]]]]]; [exists UserAttr|exists GroupAttr|exists GroupDN|exists RoleDN|exists UserDN]; split; reflexivity.
Qed.
(* False of a list of attribute types made for a URI, whose Keyword is targetfilter, and
   of attribute types; names and lists of names say which side of a rule they are for. *)
Theorem C143_refuted :
  (forall m, ats_Kind (Some (false, m)) = "<uri_search_attributes>" /\ ~ target_kind (ats_Keyword (Some (false, m))) (ats_Kind (Some (false, m)))) /\
  (forall a, at_Keyword a = None /\ at_Kind a = "") /\
  (forall d, bdn_Kind d = "bind" /\ tdn_Kind d = "target") /\ (forall l, bdns_ID l = "bind" /\ tdns_ID l = "target") /\
  oid_Kind None = "<uninitialized>" /\ oids_Kind None = "<uninitialized>" /\ ats_Kind None = "<uninitialized>" /\
  oids_Valid None = false /\ ats_Valid None = false /\ oids_ID None = "".
Proof.
  split; [|repeat split]. intros m. split; [reflexivity|]. intros (w & _ & E). destruct w; discriminate E.
Qed.
Example C143_witness :
  let l := oid_run eqfold (fun s => Some s) TargetCtrl [MLists.OStr "1.2.3"] [OPush [OKey TargetExtOp]] in
  ol_mem l = [OOid (Some (MkOID TargetCtrl (Some "1.2.3"))); OKw TargetExtOp] /\ oids_Kind (Some l) = "targetcontrol" /\
  luri_Kind (Some (URI [UDn (RDN "dc=x"); UScope 3])) = "roledn".
Proof. vm_compute. repeat split. Qed.
Print Assumptions C143_identifiers.
Print Assumptions C143_constructor.
Print Assumptions C143_changes_refuted.
Print Assumptions C143_values.
Print Assumptions C143_refuted.
