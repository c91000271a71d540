(* Further theorems for C83, C84 and C91, found necessary by editing the model. *)
From Coq Require Import String Ascii List PeanoNat NArith ZArith Bool Lia.
From Verif Require Import GoStr GoStrFacts Shifty MMisc SMisc MAttr MKw SKw MRights SRights MLevels MLists MFilter MRule MConv MTree STree MAci MView MMeth MInfo
  TMisc TRights TTree TAci TView.
Import ListNotations.
Open Scope string_scope.

(* lists of operations *)
Theorem C83_operations : forall outside l, pops l (afos_popped l) (afos_Index outside) None.
Proof. intros outside l. exact (pops_gen outside (fun o => o) l). Qed.
Print Assumptions C83_operations.

(* What the text of a permission says: the disposition the parser found, and each right
   that is named.  A refused text leaves the receiver; a text without disposition, or one
   the parser refuses, is refused. *)
Theorem C84_permission_says : forall W pm r raw p b, shifty_ok (e_shifty (w_env W)) ->
  Permission_Parse W pm r raw = Some (p, b) ->
  (b = true -> exists ap, pm raw = Some ap /\
     perm_disposition p = (match ap_allow ap with Some true => "allow" | Some false => "deny" | None => "" end) /\
     forall x, perm_positive (e_shifty (w_env W)) p (ARight (right_const x)) = existsb (fun t => text_names t x) (ap_rights ap)) /\
  (b = false -> p = r /\ (pm raw = None \/ exists ap, pm raw = Some ap /\ unpackageAntlrPermission (e_shifty (w_env W)) ap = None)).
Proof.
  intros W pm r raw p b OK H. unfold Permission_Parse, parsePermission in H. destruct (pm raw) as [ap|] eqn:E.
  - destruct (unpackageAntlrPermission (e_shifty (w_env W)) ap) as [x|] eqn:U; injection H as <- <-; (split; intros B; [|]); try discriminate.
    + exists ap. split; [reflexivity|]. exact (C03_read_exact _ OK ap x U).
    + split; [reflexivity|]. right. now exists ap.
  - injection H as <- <-. split; [discriminate|]. auto.
Qed.
(* The text of a permission is accepted when the parser gives a disposition and no token
   is the word none. *)
Theorem C84_permission_accepts : forall W pm r raw disp toks, shifty_ok (e_shifty (w_env W)) ->
  pm raw = Some {| ap_allow := Some disp; ap_rights := toks |} -> (forall t, In t toks -> lc t <> "none") ->
  exists p, Permission_Parse W pm r raw = Some (p, true).
Proof.
  intros W pm r raw disp toks OK E N. destruct (C03_read_accepts _ OK disp toks N) as (p & P). exists p. unfold Permission_Parse, parsePermission. now rewrite E, P.
Qed.
Print Assumptions C84_permission_says.
Print Assumptions C84_permission_accepts.

(* What the text of bind rules says: what the tree the parser makes of it means, where
   every rule of the tree converts.  The parser is given the text with single blanks. *)
Theorem C84_bind_says : forall W brs r raw t negated v v0 m, is_ascii raw = true -> same_truth (w_env W) v v0 ->
  brs (join " " (words (trim_space raw))) = Some m -> all_convert (w_env W) m = true ->
  BindRules_Parse W brs r raw = Some (Some t, true) -> meaning negated v t = pmeaning negated v0 m.
Proof.
  intros W brs r raw t negated v v0 m A S B C H. unfold BindRules_Parse, parseBindRules in H. rewrite (C43_words raw A), B in H.
  destruct (convert (w_env W) (w_pad W) (w_notsep W) (w_zero W) m) as [| | |t'] eqn:E; try discriminate. injection H as ->. exact (C41_meaning_partial _ _ _ _ _ _ _ _ _ S C E).
Qed.
(* The text is accepted if all its rules convert and its stacks are sound, and refused if
   the parser refuses it. *)
Theorem C84_bind_accepts : forall W brs r raw, is_ascii raw = true ->
  (forall k p ks, brs (join " " (words (trim_space raw))) = Some (PStk k p ks) -> all_convert (w_env W) (PStk k p ks) = true -> sound (PStk k p ks) = true ->
     exists t, BindRules_Parse W brs r raw = Some (Some t, true)) /\
  (brs (join " " (words (trim_space raw))) = None -> BindRules_Parse W brs r raw = Some (r, false)).
Proof.
  intros W brs r raw A. unfold BindRules_Parse, parseBindRules. rewrite (C43_words raw A). split.
  - intros k p ks E C S. rewrite E. destruct (C41_succeeds (w_env W) (w_pad W) (w_notsep W) (w_zero W) k p ks C S) as (t & T). exists t. now rewrite T.
  - intros ->. reflexivity.
Qed.
(* Blanks between the words of a text make no difference. *)
Theorem C84_bind_blanks : forall W brs r raw raw', is_ascii raw = true -> is_ascii raw' = true ->
  words (trim_space raw) = words (trim_space raw') -> BindRules_Parse W brs r raw = BindRules_Parse W brs r raw'.
Proof. intros W brs r raw raw' A A' E. unfold BindRules_Parse, parseBindRules. now rewrite (C43_words raw A), (C43_words raw' A'), E. Qed.
Print Assumptions C84_bind_says.
Print Assumptions C84_bind_accepts.
Print Assumptions C84_bind_blanks.

(* The keyword an inheritance reports. *)
Theorem C91_inheritance : forall i k, inh_Keyword i = Some k <->
  inh_valid i = true /\ inh_kw i = k /\ (k = bindkw_const UserAttr \/ k = bindkw_const GroupAttr).
Proof.
  intros i k. unfold inh_Keyword. destruct (inh_valid i); [|now split; [|intros [? _]]].
  change BindGAT with (bindkw_const GroupAttr). change BindUAT with (bindkw_const UserAttr).
  destruct (N.eqb_spec (inh_kw i) (bindkw_const GroupAttr)) as [E|E]; [cbn [orb]|destruct (N.eqb_spec (inh_kw i) (bindkw_const UserAttr)) as [F|F]; cbn [orb]].
  - split; [intros [= <-]; auto|intros (_ & <- & _); reflexivity].
  - split; [intros [= <-]; auto|intros (_ & <- & _); reflexivity].
  - split; [discriminate|]. intros (_ & <- & [X|X]); congruence.
Qed.
Print Assumptions C91_inheritance.
Example C84_says_witness :
  is_ascii "  ( a   b ) " = true /\ words (trim_space "  ( a   b ) ") = words (trim_space "( a b )") /\
  Permission_Parse W0 (fun _ => Some {| ap_allow := Some true; ap_rights := ["read"] |}) (newPermission (e_shifty (w_env W0)) false []) "x" =
    Some (newPermission (e_shifty (w_env W0)) true [MRights.AStr "read"], true).
Proof. repeat apply conj; vm_compute; reflexivity. Qed.
