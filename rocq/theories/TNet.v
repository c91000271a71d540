(* Theorems for C19-C21. *)
From Coq Require Import String Ascii List PeanoNat NArith Bool Lia.
From Verif Require Import GoStr GoStrFacts MMisc MKw MNet SAttr SNet PTime PAttr PNet.
Import ListNotations.
Open Scope string_scope.

(* C19: after any history of Set calls on a zero or constructed value, the list is
   the plausible texts given so far, each at its first place *)
Theorem C19_history : forall init h l,
  ip_run (IP init) h = Some l ->
  NoDup l /\
  (forall x, In x l <-> (In x init \/ exists xs, In xs h /\ In x xs) /\ plausible x) /\
  (exists keep, (forall x, keep x = true <-> plausible x) /\ l = firsts (filter keep (init ++ concat h))).
Proof.
  intros init h l. unfold IP. rewrite ip_set_nil, ip_run_spec. intros E. injection E as <-.
  split; [apply firsts_nodup|]. split.
  - intros x. rewrite firsts_in, filter_In, valid_ip_iff, in_app_iff, in_concat. tauto.
  - exists isValidIP. split; [apply valid_ip_iff|reflexivity].
Qed.
Theorem C19_history_zero : forall xs h, ip_run None (xs :: h) = ip_run (IP xs) h.
Proof. reflexivity. Qed.
Theorem C19_defined : forall init h, exists l, ip_run (IP init) h = Some l.
Proof. intros init h. unfold IP. rewrite ip_set_nil, ip_run_spec. eauto. Qed.
(* the text: commas between the members, which splits back into them *)
Theorem C19_text : forall init h l, ip_run (IP init) h = Some l ->
  ipaddr_string (ip_run (IP init) h) = join "," l /\
  (l <> [] -> split1 "," (ipaddr_string (ip_run (IP init) h)) = l) /\
  ipaddr_len (ip_run (IP init) h) = List.length l /\
  (ipaddr_valid (ip_run (IP init) h) = true <-> l <> []).
Proof.
  intros init h l H. rewrite H. split; [reflexivity|]. split; [|split; [reflexivity|]].
  - intros N. apply split1_join; [exact N|]. intros x Hx.
    destruct (C19_history init h l H) as (_ & M & _). apply M in Hx as [_ [_ P]].
    apply no_byte_chars. intros C. destruct P as [P|P]; specialize (P _ C); apply mem_text_iff in P; vm_compute in P; discriminate.
  - cbn [ipaddr_valid]. destruct l; cbn; split; congruence.
Qed.
(* an ip bind rule is accepted exactly when all its addresses are plausible and different *)
Theorem C19_rule : forall v,
  let fields := split1 "," (unquote (condenseWHSP v)) in
  (exists r, assertBindIP [v] = Some r) <-> NoDup fields /\ (forall x, In x fields -> plausible x).
Proof.
  intros v fields. unfold assertBindIP. fold fields.
  assert (E : forall l a, fold_left (fun a x => ipaddr_set a [x]) l (Some (firsts (filter isValidIP a))) = Some (firsts (filter isValidIP (a ++ l)))).
  { induction l as [|x l IH]; intros a; cbn [fold_left]; [now rewrite app_nil_r|].
    unfold ipaddr_set. rewrite ip_set_spec, IH, <- app_assoc. reflexivity. }
  assert (N : fields <> []) by apply split1_nonnil.
  assert (E' : fold_left (fun a x => ipaddr_set a [x]) fields None = Some (firsts (filter isValidIP fields))).
  { destruct fields as [|x l]; [easy|]. cbn [fold_left]. unfold ipaddr_set at 2. rewrite ip_set_nil. now rewrite E. }
  rewrite E'. cbn [ipaddr_len]. clear E E' N. generalize fields. clear. intros l.
  assert (F : forall k, (List.length (filter isValidIP k) <= List.length k)%nat) by (induction k as [|x k IH]; cbn; [lia|]; destruct (isValidIP x); cbn; lia).
  assert (G : forall k, List.length (filter isValidIP k) = List.length k -> forall x, In x k -> isValidIP x = true).
  { induction k as [|x k IH]; cbn; [easy|]. specialize (F k). destruct (isValidIP x) eqn:V; cbn; intros H y Hy; [|lia].
    destruct Hy as [<-|Hy]; [easy|]. apply IH; [lia|easy]. }
  assert (L1 := firsts_length (filter isValidIP l)). assert (L2 := F l).
  destruct (Nat.eqb_spec (List.length l) (List.length (firsts (filter isValidIP l)))) as [E|E].
  - split; [|eauto]. intros _. assert (G' := G l ltac:(lia)).
    assert (Ef : filter isValidIP l = l) by now apply filter_all.
    rewrite Ef in E. split; [|intros x Hx; now apply valid_ip_iff, G'].
    apply (NoDup_incl_NoDup (l := firsts l)); [apply firsts_nodup|lia|intros x; apply firsts_in].
  - split; [intros [r H]; discriminate|]. intros [ND P]. exfalso. apply E.
    assert (Ef : filter isValidIP l = l) by (apply filter_all; intros x Hx; now apply valid_ip_iff, P).
    rewrite Ef, firsts_idem by easy. reflexivity.
Qed.
Print Assumptions C19_history.
Print Assumptions C19_history_zero.
Print Assumptions C19_defined.
Print Assumptions C19_text.
Print Assumptions C19_rule.
Example C19_witness :
  ip_run (IP ["10.1.*"; "hello"]) [["fe80:*"; "10.1.*"]; [""; "8"; "192.168.0.0/16"]] = Some ["10.1.*"; "fe80:*"; "192.168.0.0/16"]
  /\ plausible "10.1.*" /\ ~ plausible "hello" /\ assertBindIP ["""10.*,fe80:*"""] = Some (Some ["10.*"; "fe80:*"]).
Proof.
  split; [reflexivity|]. split; [now apply valid_ip_iff|]. split; [|reflexivity].
  intros H. apply valid_ip_iff in H. discriminate.
Qed.

(* C20: labels after any history *)
Theorem C20_labels : forall init h l, fqdn_run (DNS init) h = Some l -> forall x, In x l -> label_ok x.
Proof.
  assert (ST : forall r xs, (forall x, In x r -> label_ok x) -> forall x, In x (labels_set r xs) -> label_ok x).
  { intros r xs H x. rewrite labels_set_spec.
    destruct (forallb validLabel xs && forallb validLabel (pieces xs))%bool eqn:V; cbn [andb]; [|apply H].
    destruct (_ <=? _)%nat; [|apply H]. rewrite in_app_iff. intros [Hx|Hx]; [now apply H|].
    apply andb_true_iff in V as [_ V]. rewrite forallb_forall in V. apply label_ok_iff. split.
    - now apply validLabel_iff, V.
    - now apply (pieces_no_dot xs). }
  intros init h l.
  assert (R : forall h r l, (forall x, In x r -> label_ok x) -> fqdn_run (Some r) h = Some l -> forall x, In x l -> label_ok x).
  { clear -ST. induction h as [|xs h IH]; intros r l H E.
    - injection E as <-. exact H.
    - apply (IH (labels_set r xs)); [|exact E]. now apply ST. }
  destruct init as [|i init]; intros E.
  - now apply (R h [] l).
  - apply (R h (labels_set [] (i :: init)) l); [|exact E]. apply ST. easy.
Qed.
Theorem C20_defined : forall init h, exists l, fqdn_run (DNS init) h = Some l.
Proof.
  intros init h. assert (R : forall h r, exists l, fqdn_run (Some r) h = Some l).
  { clear. induction h as [|xs h IH]; intros r; [now exists r|]. apply IH. }
  destruct init; apply R.
Qed.
(* one call, exactly: all the dot-separated pieces are added, or nothing is *)
Theorem C20_call : forall (r xs : list string),
  (call_ok r xs -> fqdn_set (Some r) xs = Some (r ++ flat_map (split1 ".") xs)%list) /\
  (~ call_ok r xs -> fqdn_set (Some r) xs = Some r).
Proof.
  intros r xs. unfold fqdn_set. rewrite labels_set_spec. assert (A := call_bool r xs).
  split; intros H.
  - now rewrite (proj2 A H).
  - destruct (_ && _)%bool; [|easy]. destruct H. now apply A.
Qed.
(* the text of a valid name splits back into its labels *)
Theorem C20_text : forall init h l, fqdn_run (DNS init) h = Some l -> fqdn_valid (Some l) = true ->
  fqdn_string (Some l) = join "." l /\ split1 "." (fqdn_string (Some l)) = l.
Proof.
  intros init h l E V. unfold fqdn_string. rewrite V. split; [easy|].
  apply split1_join.
  - apply fqdn_valid_iff in V. destruct l; [cbn in V; lia|easy].
  - intros x Hx. now apply (C20_labels init h l E), label_ok_iff in Hx as [_ ?].
Qed.
(* a dns bind rule is accepted exactly when its value is 2 to 15 well-formed
   labels joined by dots with at most 63 bytes in all, or is the text that marks
   an invalid name, which the reader takes for a name *)
Theorem C20_rule : forall v,
  let text := unquote (condenseWHSP v) in
  (exists r, assertBindDNS [v] = Some r) <->
  ((2 <= List.length (split1 "." text) <= 15)%nat /\ (String.length text <= 63)%nat /\
   (forall x, In x (split1 "." text) -> label_ok x)) \/ text = "<invalid_fqdn_or_label>".
Proof.
  intros v text. unfold assertBindDNS. fold text.
  assert (S : DNS [text] = Some (labels_set [] [text])) by reflexivity. rewrite S, labels_set_spec. clear S.
  assert (B := call_bool [] [text]). unfold call_ok, pieces in *. cbn [flat_map] in *. rewrite app_nil_r in *.
  change (@List.length string []) with 0%nat in *. cbn [app].
  assert (T : (String.length text <= 63)%nat -> (0 + total (split1 "." text) <= 253)%nat).
  { intros H. rewrite <- (join_split1 "." text) in H. revert H. generalize (split1 "." text). intros l H.
    assert (total l <= String.length (join "." l))%nat; [|lia]. clear. unfold total, list_sum. induction l as [|x [|y l] IH]; [easy|cbn; lia|].
    rewrite join_cons, !length_app. cbn [map fold_right] in *. cbn [String.length]. lia. }
  split.
  - destruct (_ && _)%bool eqn:C.
    + destruct (proj1 B eq_refl) as (C1 & C2 & _). intros [r H]. unfold fqdn_string in H.
      destruct (fqdn_valid (Some (split1 "." text))) eqn:V.
      * left. apply fqdn_valid_iff in V. split; [exact V|]. split; [apply C1; now left|exact C2].
      * right. destruct (String.eqb_spec text badFQDN) as [E|]; [exact E|discriminate].
    + intros [r H]. change (fqdn_string (Some [])) with badFQDN in H. right.
      destruct (String.eqb_spec text badFQDN) as [E|]; [exact E|discriminate].
  - intros [(H1 & H2 & H3)|H].
    + rewrite (proj2 B) by (split; [intros x [<-|[]]; exact H2|split; [exact H3|now apply T]]).
      assert (V : fqdn_valid (Some (split1 "." text)) = true) by now apply fqdn_valid_iff.
      unfold fqdn_string. rewrite V, (join_split1 "." text), String.eqb_refl. eauto.
    + rewrite H. vm_compute. eauto.
Qed.
(* The text of an invalid name is the marker, and no list of labels joins to it. *)
Theorem C20_marker : forall init h l, fqdn_run (DNS init) h = Some l ->
  (fqdn_valid (Some l) = false <-> fqdn_string (Some l) = "<invalid_fqdn_or_label>") /\
  join "." l <> "<invalid_fqdn_or_label>".
Proof.
  intros init h l E.
  assert (N : join "." l <> "<invalid_fqdn_or_label>").
  { intros J. destruct l as [|x l]; [discriminate|]. assert (K := C20_labels init h (x :: l) E x (or_introl eq_refl)).
    destruct K as (L1 & L2 & _). destruct x as [|c x]; [cbn in L1; lia|].
    assert (c = "<"%char) as ->.
    { destruct l; cbn [join] in J; cbn [append] in J; now injection J. }
    specialize (L2 "<"%char (or_introl eq_refl)). destruct L2 as [B|B]; [discriminate B|].
    unfold in_text in B. cbn in B. intuition discriminate. }
  split; [|exact N]. unfold fqdn_string. destruct (fqdn_valid (Some l)); split; intros X; try reflexivity; try discriminate. now destruct N.
Qed.
Print Assumptions C20_marker.
Print Assumptions C20_labels.
Print Assumptions C20_defined.
Print Assumptions C20_call.
Print Assumptions C20_text.
Print Assumptions C20_rule.
Example C20_witness :
  fqdn_run (DNS ["www"; "-bad"]) [["www"]; ["example.com"]; ["a..b"]; ["*"]] = Some ["www"; "example"; "com"; "*"] /\
  label_ok "ex-4mple" /\ ~ label_ok "-x" /\ ~ label_ok "x." /\
  assertBindDNS ["""www.example.com"""] = Some (Some ["www"; "example"; "com"]).
Proof.
  assert (D : forall s, label_ok s -> (validLabel s && no_byte "." s)%bool = true).
  { intros s H. apply label_ok_iff in H as [A B]. now rewrite (proj2 (validLabel_iff s) A), B. }
  split; [reflexivity|]. split; [|split; [|split]].
  - apply label_ok_iff. split; [now apply validLabel_iff|reflexivity].
  - intros H. now apply D in H.
  - intros H. now apply D in H.
  - reflexivity.
Qed.

(* C21 is false both ways. *)
Definition a63 : string := "aaaaaaaaaaaaaaaaaaaaaaaaaaaaaaaaaaaaaaaaaaaaaaaaaaaaaaaaaaaaaaa".
Theorem C21_long_name_rejected_refuted :
  ~ (forall h l, fqdn_run (DNS []) h = Some l -> fqdn_valid (Some l) = true -> (String.length (join "." l) <= 253)%nat).
Proof.
  intros H. specialize (H [[a63; a63; a63]; [a63; a63; a63]] [a63; a63; a63; a63; a63; a63]).
  assert (E : (String.length (join "." [a63; a63; a63; a63; a63; a63]) <= 253)%nat) by (apply H; vm_compute; reflexivity).
  apply Nat.leb_le in E. vm_compute in E. discriminate.
Qed.
Definition sixteen : list string := ["a";"b";"c";"d";"e";"f";"g";"h";"i";"j";"k";"l";"m";"n";"o";"p"].
Theorem C21_short_name_accepted_refuted :
  ~ (forall h l, fqdn_run (DNS []) h = Some l -> (2 <= List.length l)%nat -> (String.length (join "." l) <= 253)%nat -> fqdn_valid (Some l) = true).
Proof.
  intros H. specialize (H [sixteen] sixteen).
  assert (E : fqdn_valid (Some sixteen) = true) by (apply H; [reflexivity|cbn; lia|cbn; lia]).
  vm_compute in E. discriminate.
Qed.
(* Exactly: validity depends only on the number of labels. *)
Theorem C21_exact : forall l, fqdn_valid (Some l) = true <-> (2 <= List.length l <= 15)%nat.
Proof. exact fqdn_valid_iff. Qed.
Print Assumptions C21_long_name_rejected_refuted.
Print Assumptions C21_short_name_accepted_refuted.
Print Assumptions C21_exact.
