(* C77-C80. *)
From Coq Require Import String Ascii List PeanoNat NArith ZArith Bool Lia.
From Verif Require Import GoStr GoStrFacts Shifty MMisc MLists MKw MRights MRule MConv MTree MAci
  SLists SAci PLists SKw PKw PRule SMeth STree PTree TTree PAci TAci SText.
Import ListNotations.
Open Scope string_scope.

(* ---- C77 ---- *)
Lemma given_perm_iff p : given_perm p <-> perm_valid p = true.
Proof. unfold given_perm. destruct p; split; cbn; congruence. Qed.
Lemma given_bind_iff b : given_bind b <-> bctx_valid b = true.
Proof.
  destruct b as [r|[[c|w p f d ks]|]]; cbn; split; try easy.
  - intros (w & p & f & d & ks & E). discriminate E.
  - eauto 6.
  - intros (w & p & f & d & ks & E). discriminate E.
Qed.
Lemma zero_parts r : pbr_isZero r = true -> perm_of r = PNil /\ bind_of r = None.
Proof. destruct r as [[[|d v] [b|]]|]; cbn; try discriminate; auto. Qed.
Lemma set_unfold W r xs : pbr_set W r xs =
  match pbrec_set W (MkPB (perm_of r) (bind_of r)) xs with Some x => Some (Some x) | None => None end.
Proof.
  unfold pbr_set. destruct (pbr_isZero r) eqn:Z.
  - destruct (zero_parts r Z) as [-> ->]. reflexivity.
  - destruct r as [[p b]|]; [reflexivity|discriminate Z].
Qed.
Lemma set_suits W xs : forall ys r, (forall x, In x xs -> suits x) ->
  pbrec_set W r (xs ++ ys)%list = pbrec_set W (MkPB (last_perm (pb_p r) xs) (last_bind (pb_b r) xs)) ys.
Proof.
  induction xs as [|x xs IH]; intros ys r H; [now destruct r|].
  assert (S := H x (or_introl eq_refl)). assert (H' : forall y, In y xs -> suits y) by (intros y Hy; apply H; now right).
  destruct x as [s|p|b|]; cbn [suits] in S; cbn [app pbrec_set last_perm last_bind].
  - destruct S.
  - apply given_perm_iff in S. rewrite S, (IH ys _ H'). reflexivity.
  - apply given_bind_iff in S. rewrite S, (IH ys _ H'). reflexivity.
  - apply (IH ys _ H').
Qed.
(* the last permission and the last bind rules given win, the part not given stays *)
Theorem C77_set : forall W r xs, (forall x, In x xs -> suits x) ->
  pbr_set W r xs = Some (Some (MkPB (last_perm (perm_of r) xs) (last_bind (bind_of r) xs))).
Proof.
  intros W r xs H. rewrite set_unfold. assert (E := set_suits W xs [] (MkPB (perm_of r) (bind_of r)) H).
  rewrite app_nil_r in E. now rewrite E.
Qed.
Corollary C77_keeps : forall W r,
  (forall p, given_perm p -> pbr_set W r [PAPerm p] = Some (Some (MkPB p (bind_of r)))) /\
  (forall b, given_bind b -> pbr_set W r [PABind b] = Some (Some (MkPB (perm_of r) (Some b)))).
Proof. intros W r. split; intros x G; rewrite C77_set; [reflexivity| |reflexivity|]; intros y [<-|[]]; exact G. Qed.
(* a refused argument and those after it change nothing *)
Theorem C77_refused : forall W r xs x ys, (forall y, In y xs -> suits y) -> unfit W x ->
  pbr_set W r (xs ++ x :: ys)%list = pbr_set W r xs.
Proof.
  intros W r xs x ys H U. rewrite (C77_set W r xs H), set_unfold, (set_suits W xs (x :: ys) _ H). cbn [pb_p pb_b].
  destruct x as [s|p|b|]; cbn [unfit] in U; cbn [pbrec_set].
  - now rewrite U.
  - rewrite given_perm_iff in U. destruct (perm_valid p); [now destruct U|reflexivity].
  - rewrite given_bind_iff in U. destruct (bctx_valid b); [now destruct U|reflexivity].
  - destruct U.
Qed.
(* a text that parses replaces both parts *)
Theorem C77_text : forall W r s x ys, parsePBR W s = Gives (Some x) ->
  pbr_set W r (PAStr s :: ys) = pbr_set W (Some x) ys.
Proof. intros W r s [p b] ys E. rewrite !set_unfold. cbn [pbrec_set]. now rewrite E. Qed.
(* the zero BindRules, a rule without keyword and the zero permission are refused *)
Theorem C77_zero : forall W r, pbr_set W r [PABind (BCStack None)] = pbr_set W r [] /\
  pbr_set W r [PABind (BCRule None)] = pbr_set W r [] /\ pbr_set W r [PAPerm PNil] = pbr_set W r [].
Proof. intros W r. repeat apply conj; reflexivity. Qed.
Print Assumptions C77_set.
Print Assumptions C77_keeps.
Print Assumptions C77_refused.
Print Assumptions C77_text.
Print Assumptions C77_zero.
Definition stkB : tree := Stk WAnd false false true [Leaf cB].
Example C77_witness :
  let xs := [PAPerm (PSome true 1%N); PABind (BCRule (Some cB)); PAOther; PAPerm (PSome false 2%N); PABind (BCStack (Some stkB))] in
  (forall x, In x xs -> suits x) /\ unfit W0 (PABind (BCStack None)) /\ unfit W0 (PAStr "bad") /\
  pbr_set W0 theA (xs ++ PAStr "bad" :: [PAStr "A"])%list = Some (Some (MkPB (PSome false 2%N) (Some (BCStack (Some stkB))))) /\
  (exists x, parsePBR W0 "A" = Gives (Some x)).
Proof.
  cbv zeta. repeat apply conj.
  - intros x [<-|[<-|[<-|[<-|[<-|[]]]]]]; cbn [suits given_bind]; try (intros [=]); try exact I; try reflexivity. unfold stkB. eauto 6.
  - intros (w & p & f & d & ks & [=]).
  - vm_compute. reflexivity.
  - vm_compute. reflexivity.
  - eexists. vm_compute. reflexivity.
Qed.

(* ---- C78 ---- *)
Theorem C78_PBR : forall p b,
  (given_perm p -> PBR p (Some b) = Some (MkPB p (Some b))) /\
  (forall c, p = PNil -> PBR p c = None) /\ PBR p None = None.
Proof.
  intros p b. repeat apply conj.
  - intros G. apply given_perm_iff in G. destruct p; [discriminate|reflexivity].
  - intros c ->. now destruct c.
  - now destruct p.
Qed.
(* the text of a rule: its permission, a blank, the text of its bind rules, a semicolon *)
Theorem C78_text : forall W p b s, given_perm p -> bind_text W b s -> b <> BCStack None ->
  pbr_string W (Some (MkPB p (Some b))) = perm_string (e_shifty (w_env W)) p ++ " " ++ s ++ ";".
Proof.
  intros W p b s G T N. apply given_perm_iff in G. destruct p as [|d v]; [discriminate|].
  destruct b as [r|[t|]]; cbn [bind_text] in T; subst; [reflexivity|reflexivity|now destruct N].
Qed.
(* without a permission or without bind rules the text is the marker *)
Theorem C78_marker : forall W r, perm_of r = PNil \/ bind_of r = None -> pbr_string W r = "<invalid_pbrule>" /\ pbr_valid r = false.
Proof. intros W [[[|d v] [b|]]|] [H|H]; cbn in H; try discriminate H; split; reflexivity. Qed.
(* a rule is zero exactly if both parts are missing *)
Theorem C78_zero : forall r, pbr_isZero r = true <-> perm_of r = PNil /\ bind_of r = None.
Proof.
  intros r. split; [apply zero_parts|]. destruct r as [[p b]|]; [|reflexivity]. cbn. now intros [-> ->].
Qed.
Print Assumptions C78_PBR.
Print Assumptions C78_text.
Print Assumptions C78_marker.
Print Assumptions C78_zero.
Example C78_witness :
  given_perm (PSome true 3%N) /\ bind_text W0 (BCStack (Some stkB)) ("ssf >= " ++ quote "128") /\
  pbr_string W0 (PBR (PSome false 2%N) (Some (BCStack (Some stkB)))) = "deny(write) ssf >= " ++ quote "128" ++ ";" /\
  pbr_isZero (Some (MkPB PNil (Some (BCStack (Some stkB))))) = false /\ pbr_isZero (Some (MkPB (PSome false 2%N) None)) = false.
Proof. repeat apply conj; try (vm_compute; reflexivity). intros [=]. Qed.

(* ---- C79 ---- *)
Theorem C79_lines : forall W l, l <> [] -> (forall i, In i l -> no_byte "010" (ins_string W i) = true) ->
  split1 "010" (inss_string W l) = map (ins_string W) l.
Proof.
  intros W l N H. unfold inss_string, newline. apply split1_join.
  - now destruct l.
  - intros x Hx. apply in_map_iff in Hx as (i & <- & Hi). now apply H.
Qed.
Theorem C79_refuted : ~ (forall W init l, ACIs W init = Some l -> l <> [] ->
  split1 "010" (inss_string W l) = map (ins_string W) l).
Proof.
  intros H. specialize (H W0 [JIns (ACI W0 [IStr ("a" ++ String "010" "b")])] _ eq_refl ltac:(discriminate)). vm_compute in H. discriminate H.
Qed.
(* two lists with such texts and the same text have the same instructions' texts *)
Theorem C79_partial : forall W l l', l <> [] -> l' <> [] ->
  (forall i, In i l \/ In i l' -> no_byte "010" (ins_string W i) = true) ->
  inss_string W l = inss_string W l' -> map (ins_string W) l = map (ins_string W) l'.
Proof.
  intros W l l' N N' H E. rewrite <- (C79_lines W l), <- (C79_lines W l'), E; auto.
Qed.
(* exactly the lists none of whose texts has a newline *)
Theorem C79_exact : forall W l, l <> [] -> (split1 "010" (inss_string W l) = map (ins_string W) l <-> forall i, In i l -> no_byte "010" (ins_string W i) = true).
Proof.
  intros W l N. split; [|now apply C79_lines]. intros E i I. apply (split1_no "010" (inss_string W l)). rewrite E. now apply in_map.
Qed.
Print Assumptions C79_exact.
Print Assumptions C79_lines.
Print Assumptions C79_refuted.
Print Assumptions C79_partial.
Example C79_witness : let x := ACI W0 [IStr "a"; IPBR theA] in let y := ACI W0 [IStr "b"; IPBR theB; ITR tScope] in
  ACIs W0 [JIns x; JIns y] = Some [x; y] /\ (forall i, In i [x; y] -> no_byte "010" (ins_string W0 i) = true) /\
  inss_string W0 [x; y] = ins_string W0 x ++ String "010" "" ++ ins_string W0 y.
Proof. repeat apply conj; [reflexivity| |reflexivity]. intros i [<-|[<-|[]]]; reflexivity. Qed.

(* ---- C80 ---- *)
Lemma same_app a b c d : same_letters a b -> same_letters c d -> same_letters (a ++ c) (b ++ d).
Proof. unfold same_letters. rewrite !map_bytes_app. now intros -> ->. Qed.
Lemma same_join s s' l : same_letters s s' -> same_letters (join s l) (join s' l).
Proof.
  intros H. induction l as [|x [|y l] IH]; [reflexivity|reflexivity|]. rewrite !join_cons. apply same_app; [reflexivity|]. now apply same_app.
Qed.
Lemma folded_same f g s : In s ["AND"; "OR"; "NOT"] -> same_letters (folded f s) (folded g s).
Proof. intros [<-|[<-|[<-|[]]]]; destruct f, g; reflexivity. Qed.
Lemma wrap_same p d a b : same_letters a b -> same_letters (wrap_paren p d a) (wrap_paren p d b).
Proof. intros H. unfold wrap_paren. destruct p; [|exact H]. repeat (apply same_app; [reflexivity|]). now apply same_app. Qed.
Theorem C80_fold : forall tn ns b t, same_letters (brs_string tn ns (brs_fold b t)) (brs_string tn ns t).
Proof.
  intros tn ns b [c|w p f d ks]; [reflexivity|]. cbn [brs_fold]. unfold brs_string.
  assert (X : same_letters (tstr ns (Stk w p b d ks)) (tstr ns (Stk w p f d ks))).
  { cbn [tstr]. apply wrap_same, same_join. unfold separator. destruct w; [| |reflexivity]; apply same_app; try reflexivity; apply same_app; try reflexivity; apply folded_same; cbn; tauto. }
  destruct tn; [|exact X]. destruct w; try exact X. cbn [with_not]. apply same_app; [apply folded_same; cbn; tauto|]. now apply same_app.
Qed.
(* without parentheses the text is that of the members with the word between them *)
Theorem C80_words : forall ns w b d ks, w <> WNot ->
  brs_string true ns (brs_paren false (brs_fold b (Stk w true false d ks))) =
  join (" " ++ shown_word w b ++ " ") (filter (fun s => negb (String.eqb s "")) (map (brs_string true ns) ks)).
Proof.
  intros ns w b d ks N. unfold brs_string. cbn [brs_fold brs_paren tstr wrap_paren].
  assert (E : forall l, nonempty l = filter (fun s => negb (String.eqb s "")) l).
  { intros l. unfold nonempty. apply filter_ext. intros [|c s]; reflexivity. }
  rewrite E. unfold wrap_paren. destruct w; [| |now destruct N]; destruct b; reflexivity.
Qed.
Theorem C80_not : forall ns b p d ks,
  brs_string true ns (brs_fold b (Stk WNot p false d ks)) = shown_word WNot b ++ " " ++ brs_string false ns (brs_fold b (Stk WNot p false d ks)).
Proof. intros ns [] p d ks; reflexivity. Qed.
(* parentheses go around the text, with a blank inside each if padding is on *)
Theorem C80_paren : forall ns b w p f d ks, let t := Stk w p f d ks in
  brs_string false ns (brs_nopadding b (brs_paren true t)) =
    "(" ++ gap (negb b) ++ brs_string false ns (brs_paren false t) ++ gap (negb b) ++ ")".
Proof. intros ns [] w p f d ks; reflexivity. Qed.
(* the meaning does not depend on the settings *)
Lemma present_stk stop h : forall w p f d ks, (forall c, In c h -> presentation c) ->
  exists p' f' d', brs_run stop (Stk w p f d ks) h = Stk w p' f' d' ks.
Proof.
  induction h as [|c h IH]; intros w p f d ks H; [now exists p, f, d|].
  assert (P := H c (or_introl eq_refl)). assert (H' : forall x, In x h -> presentation x) by (intros x Hx; apply H; now right).
  unfold brs_run. cbn [fold_left]. destruct c; cbn [presentation] in P; try destruct P; cbn [brs_step brs_paren brs_fold brs_nopadding]; apply IH; exact H'.
Qed.
Theorem C80_meaning : forall neg v stop w p f d ks h, (forall c, In c h -> presentation c) ->
  meaning neg v (brs_run stop (Stk w p f d ks) h) = meaning neg v (Stk w p f d ks).
Proof. intros neg v stop w p f d ks h H. destruct (present_stk stop h w p f d ks H) as (p' & f' & d' & ->). reflexivity. Qed.
(* the settings stay until changed again: the last call of each kind decides *)
Fixpoint last_paren (b : bool) (h : list brscall) : bool :=
  match h with [] => b | SParen c :: t => last_paren c t | _ :: t => last_paren b t end.
Fixpoint last_fold (b : bool) (h : list brscall) : bool :=
  match h with [] => b | SFold c :: t => last_fold c t | _ :: t => last_fold b t end.
Fixpoint last_pad (b : bool) (h : list brscall) : bool :=
  match h with [] => b | SNoPadding c :: t => last_pad (negb c) t | _ :: t => last_pad b t end.
Theorem C80_settings : forall stop h w p f d ks, exists ks',
  brs_run stop (Stk w p f d ks) h = Stk w (last_paren p h) (last_fold f h) (last_pad d h) ks'.
Proof.
  intros stop h. induction h as [|c h IH]; intros w p f d ks; [now exists ks|].
  unfold brs_run in *. cbn [fold_left]. destruct c; cbn [brs_step brs_push brs_pop brs_paren brs_fold brs_nopadding last_paren last_fold last_pad]; apply IH.
Qed.
Print Assumptions C80_fold.
Print Assumptions C80_words.
Print Assumptions C80_not.
Print Assumptions C80_paren.
Print Assumptions C80_meaning.
Print Assumptions C80_settings.
Example C80_witness :
  let t := Stk WAnd false false true [Leaf cB; Stk WNot true true false [Leaf cB]] in
  brs_string false "" (brs_run false t [SParen true; SFold true]) = "( ssf >= ""128"" and not (ssf >= ""128"") )" /\
  (forall c, In c [SParen true; SFold true] -> presentation c).
Proof. split; [vm_compute; reflexivity|]. intros c [<-|[<-|[]]]; exact I. Qed.
