(* Theorems for C01-C04 (permissions). *)
From Coq Require Import String Ascii List NArith ZArith Bool.
From Verif Require Import GoStr Shifty MRights SRights PRights.
Import ListNotations.
Open Scope string_scope.

(* C01: after any history, a right is positive exactly when the last call that
   mentions it was a Shift. *)
Theorem C01_history : forall sh, shifty_ok sh ->
  forall disp init h r,
    calls_ok arg_covered (CShift init :: h) ->
    perm_positive sh (perm_run sh (newPermission sh disp init) h) (ARight (right_const r)) =
    granted false (CShift init :: h) r.
Proof. exact history_positive. Qed.
Print Assumptions C01_history.

(* C01: asking by name, in any letter case, is the same question. *)
Theorem C01_by_name : forall sh p s r, lc s = right_name r ->
  perm_positive sh p (AStr s) = perm_positive sh p (ARight (right_const r)).
Proof. exact positive_by_name. Qed.
Print Assumptions C01_by_name.

(* The contract is inhabited, by two libraries that differ outside it. *)
Example C01_contract_inhabited : shifty_ok shifty_ref /\ shifty_ok shifty_clear.
Proof. exact (conj shifty_ref_ok shifty_clear_ok). Qed.
Definition demo_history : list perm_call :=
  [CUnshift [AStr "WRITE"; AStr "bogus"]; CShift [AStr "Proxy"; AInt 2]; CUnshift [ARight 1]].
Example C01_witness :
  calls_ok arg_covered (CShift [AStr "ALL"] :: demo_history) /\
  granted false (CShift [AStr "ALL"] :: demo_history) Write = true /\
  granted false (CShift [AStr "ALL"] :: demo_history) Read = false /\
  granted false (CShift [AStr "ALL"] :: demo_history) Proxy = true.
Proof.
  split; [|vm_compute; auto].
  intros c x Hc Hx. unfold demo_history in Hc. cbn [In] in Hc.
  repeat destruct Hc as [<-|Hc]; try contradiction; cbn [call_args In] in Hx;
  repeat destruct Hx as [<-|Hx]; try contradiction; vm_compute; try split; congruence || reflexivity.
Qed.

(* C02: the text is that of the disposition and the set of rights... *)
Theorem C02_text : forall sh, shifty_ok sh ->
  forall disp init h,
    calls_ok arg_named (CShift init :: h) ->
    perm_string sh (perm_run sh (newPermission sh disp init) h) =
    spec_text disp (granted false (CShift init :: h)).
Proof. exact history_text. Qed.
Print Assumptions C02_text.

(* ... so equal texts mean the same disposition and the same rights, for any
   two histories. *)
Theorem C02_text_determines : forall sh, shifty_ok sh ->
  forall disp init h disp' init' h',
    calls_ok arg_named (CShift init :: h) ->
    calls_ok arg_named (CShift init' :: h') ->
    perm_string sh (perm_run sh (newPermission sh disp init) h) =
    perm_string sh (perm_run sh (newPermission sh disp' init') h') <->
    disp = disp' /\
    forall r, granted false (CShift init :: h) r = granted false (CShift init' :: h') r.
Proof.
  intros sh OK disp init h disp' init' h' H H'.
  rewrite (history_text sh OK disp init h H), (history_text sh OK disp' init' h' H'). split.
  - apply spec_text_inj.
  - intros [-> E]. unfold spec_text. rewrite (spec_names_ext _ _ E). reflexivity.
Qed.
Print Assumptions C02_text_determines.

Example C02_witness :
  perm_string shifty_ref (perm_run shifty_ref (Allow shifty_ref [AStr "search"; AStr "Read"]) [CShift [ARight 32]])
  = "allow(read,search,compare)" /\
  perm_string shifty_clear (Deny shifty_clear [ARight 895; AStr "proxy"]) = "deny(all,proxy)".
Proof. vm_compute. auto. Qed.

(* C03: reading back the printed list. Holds for every reachable permission:
   when the set is not empty the reader accepts and returns the permission;
   for the empty set ("none") it returns it or an error, depending on what the
   bit library does with zero. *)
Theorem C03_round_trip : forall sh, shifty_ok sh ->
  forall disp init h,
    calls_ok arg_named (CShift init :: h) ->
    let p := perm_run sh (newPermission sh disp init) h in
    exists body,
      perm_string sh p = (if disp then "allow" else "deny") ++ "(" ++ body ++ ")" /\
      ((exists r, granted false (CShift init :: h) r = true) ->
        unpackageAntlrPermission sh {| ap_allow := Some disp; ap_rights := split1 "," body |} = Some p) /\
      (forall q, unpackageAntlrPermission sh {| ap_allow := Some disp; ap_rights := split1 "," body |} = Some q -> q = p).
Proof.
  intros sh OK disp init h H p.
  destruct (named_run_lt sh OK (CShift init :: h) disp 0%N eq_refl H) as (v & A & B).
  change (perm_run sh (PSome disp 0%N) (CShift init :: h)) with p in A. rewrite A.
  destruct (round_trip sh disp v OK B) as (body & T & R1 & R2). exists body. split; [|split].
  - rewrite T. destruct disp; reflexivity.
  - intros [r Hr]. apply R1. intros ->.
    rewrite <- (history_positive sh OK disp init h r (calls_named_covered _ H)) in Hr.
    fold p in Hr. rewrite A in Hr. cbn [perm_positive positive_bits] in Hr.
    rewrite (positive_bit sh OK) in Hr by reflexivity. rewrite N.bits_0 in Hr. discriminate.
  - exact R2.
Qed.
Print Assumptions C03_round_trip.

(* C03: a permission read from any token list has the stated disposition and
   grants exactly the rights named, whatever the bit library does. *)
Theorem C03_read_exact : forall sh, shifty_ok sh ->
  forall ap p, unpackageAntlrPermission sh ap = Some p ->
    perm_disposition p = (match ap_allow ap with Some true => "allow" | Some false => "deny" | None => "" end) /\
    forall r, perm_positive sh p (ARight (right_const r)) =
              existsb (fun t => text_names t r) (ap_rights ap).
Proof.
  intros sh OK ap p H. apply read_sound in H as (d & v & A & -> & B & C). rewrite A. split.
  - destruct d; reflexivity.
  - intros r. cbn [perm_positive positive_bits].
    rewrite (positive_bit sh OK) by (eapply N.lt_trans; [exact B|reflexivity]). apply C.
Qed.
Print Assumptions C03_read_exact.

(* C03: and the reader accepts every token list without "none" when the
   disposition is known. *)
Theorem C03_read_accepts : forall sh, shifty_ok sh ->
  forall disp toks, (forall t, In t toks -> lc t <> "none") ->
    exists p, unpackageAntlrPermission sh {| ap_allow := Some disp; ap_rights := toks |} = Some p.
Proof.
  intros sh OK disp toks H. destruct (read_tokens sh OK disp toks H) as (v & A & _). eauto.
Qed.
Print Assumptions C03_read_accepts.

Example C03_witness : forall sh, shifty_ok sh ->
  exists p, unpackageAntlrPermission sh {| ap_allow := Some true; ap_rights := ["READ"; "read"; "Write"] |} = Some p
    /\ perm_positive sh p (AStr "write") = true /\ perm_positive sh p (AStr "add") = false.
Proof.
  intros sh OK.
  destruct (C03_read_accepts sh OK true ["READ"; "read"; "Write"]) as [p Hp].
  - intros t [<-|[<-|[<-|[]]]]; discriminate.
  - exists p. split; [exact Hp|]. destruct (C03_read_exact sh OK _ _ Hp) as [_ R].
    rewrite (C01_by_name sh p "write" Write eq_refl), (C01_by_name sh p "add" Add eq_refl), !R.
    split; reflexivity.
Qed.

(* Companion finding for C03: an unknown right name is dropped without an error. *)
Theorem C03_unknown_right_reported_refuted : forall sh, shifty_ok sh ->
  exists toks p, In "wriet" toks /\
    unpackageAntlrPermission sh {| ap_allow := Some false; ap_rights := toks |} = Some p /\
    perm_positive sh p (AStr "write") = false.
Proof.
  intros sh OK. exists ["read"; "wriet"].
  destruct (C03_read_accepts sh OK false ["read"; "wriet"]) as [p Hp].
  - intros t [<-|[<-|[]]]; discriminate.
  - exists p. split; [right; left; reflexivity|split; [exact Hp|]].
    destruct (C03_read_exact sh OK _ _ Hp) as [_ R].
    rewrite (C01_by_name sh p "write" Write eq_refl), R. reflexivity.
Qed.
Print Assumptions C03_unknown_right_reported_refuted.

(* C04: no call changes the disposition, for any arguments and any bit library;
   every text starts with it. *)
Theorem C04_disposition : forall sh disp init h,
  let p := perm_run sh (newPermission sh disp init) h in
  perm_disposition p = (if disp then "allow" else "deny") /\
  exists rest, perm_string sh p = (if disp then "allow" else "deny") ++ "(" ++ rest.
Proof.
  intros sh disp init h p.
  assert (E : exists v, p = PSome disp v).
  { unfold p, newPermission. generalize (shift_bits sh 0 init) as v. clear p.
    induction h as [|c h IH]; intros v; [exists v; reflexivity|].
    destruct c; apply IH. }
  destruct E as [v ->]. split.
  - destruct disp; reflexivity.
  - exists (join "," (perm_right_names sh v) ++ ")"). destruct disp; reflexivity.
Qed.
Print Assumptions C04_disposition.
(* Allow makes allow permissions and Deny deny permissions, with the same rights *)
Theorem C04_constructors : forall sh xs h,
  let p := perm_run sh (Allow sh xs) h in
  let q := perm_run sh (Deny sh xs) h in
  perm_disposition p = "allow" /\ perm_disposition q = "deny" /\
  forall a, perm_positive sh p a = perm_positive sh q a.
Proof.
  intros sh xs h p q. split; [exact (proj1 (C04_disposition sh true xs h))|]. split; [exact (proj1 (C04_disposition sh false xs h))|].
  unfold p, q, Allow, Deny, newPermission. clear p q. generalize (shift_bits sh 0 xs) as v.
  induction h as [|c h IH]; intros v a; [reflexivity|]. destruct c; apply IH.
Qed.
Print Assumptions C04_constructors.
Example C04_witness :
  perm_string shifty_ref (perm_run shifty_ref (Deny shifty_ref []) [CShift [AStr "all"]; CUnshift [AInt (-5)]]) = "deny(all)".
Proof. vm_compute. reflexivity. Qed.
