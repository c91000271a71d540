(* Theorems for C98: what the values of a rule are read as, keyword by keyword. *)
From Coq Require Import String Ascii List PeanoNat NArith ZArith Bool Lia Permutation.
From Verif Require Import GoStr GoStrFacts Shifty MMisc MLists MKw MSec MTime MAttr MLevels MNet MFilter MUri MRule MConv
  SMisc SKw SLists SSec STime SAttr SFilter PRights PNet PKw PMisc PLists PTime PAttr PFilter PRule PTree TMisc TLists TSec TTime TAttr TLevels TFilter TTree SRead.
Import ListNotations.
Open Scope string_scope.

Lemma known_bind c k : eqfold (c_kw c) (bindkw_name k) = true -> matchBKW (c_kw c) = bindkw_const k.
Proof. intros K. destruct (bindkw_lookup _ (Permutation_refl _) (c_kw c)) as [A _]. now apply A. Qed.
Lemma known_target c k : eqfold (c_kw c) (targetkw_name k) = true -> matchTKW (c_kw c) = targetkw_const k.
Proof. intros K. destruct (targetkw_lookup _ (Permutation_refl _) (c_kw c)) as [A _]. now apply A. Qed.

(* the keyword decides which reader is used, and nothing but the value changes *)
Lemma bind_text en c k style vals t : eqfold (c_kw c) (bindkw_name k) = true ->
  assert_bind en (bindkw_const k) vals = AOk (XText t) -> reads en c style vals (in_quotes t).
Proof.
  intros K A. unfold reads, br_assert, raw. cbn [with_ex c_ex br_keyword c_kw]. rewrite bkw_round, (known_bind c k K), A.
  eexists. split; [reflexivity|]. reflexivity.
Qed.
Lemma bind_err en c k style vals : eqfold (c_kw c) (bindkw_name k) = true ->
  assert_bind en (bindkw_const k) vals = AErr -> refuses en c style vals.
Proof.
  intros K A. unfold refuses, br_assert, raw. cbn [with_ex c_ex br_keyword c_kw]. now rewrite bkw_round, (known_bind c k K), A.
Qed.
Lemma style_line style l : (if negb (style =? MultivalSliceQuotes)%Z then quote (list_text (list_style style l) l) else list_text (list_style style l) l) = list_line style l.
Proof.
  unfold list_line, list_style, list_text, MultivalSliceQuotes. destruct (style =? 0)%Z eqn:E; cbn [negb].
  - destruct l as [|a [|b l]]; reflexivity.
  - destruct (List.length l <? 2)%nat; reflexivity.
Qed.
Lemma bind_list en c k style vals l : In k [UserDN; RoleDN; GroupDN] -> eqfold (c_kw c) (bindkw_name k) = true ->
  assert_bind en (bindkw_const k) vals = AOk (XList LBindDN false l) -> reads en c style vals (list_line style l).
Proof.
  intros I K A. unfold reads, br_assert, raw. cbn [with_ex c_ex br_keyword c_kw]. rewrite bkw_round, (known_bind c k K), A.
  eexists. split; [reflexivity|]. cbn [br_set_expression on_cond br_set_quote_style with_ex c_ex br_keyword c_kw].
  rewrite (known_bind c k K).
  replace ((bindkw_const k =? BindUDN)%N || (bindkw_const k =? BindGDN)%N || (bindkw_const k =? BindRDN)%N)%bool with true
    by (destruct I as [<-|[<-|[<-|[]]]]; reflexivity).
  rewrite <- style_line. reflexivity.
Qed.
Lemma target_text en c k style vals t : eqfold (c_kw c) (targetkw_name k) = true ->
  assert_target en (targetkw_const k) vals = AOk (XText t) -> treads en c style vals (in_quotes t).
Proof.
  intros K A. unfold treads, tr_assert, raw. cbn [with_ex c_ex tr_keyword c_kw]. rewrite tkw_round, (known_target c k K), A.
  eexists. split; [reflexivity|]. reflexivity.
Qed.
Lemma target_err en c k style vals : eqfold (c_kw c) (targetkw_name k) = true ->
  assert_target en (targetkw_const k) vals = AErr -> trefuses en c style vals.
Proof.
  intros K A. unfold trefuses, tr_assert, raw. cbn [with_ex c_ex tr_keyword c_kw]. now rewrite tkw_round, (known_target c k K), A.
Qed.
Definition kind_of (k : targetkw) : option lkind :=
  match k with
  | TgTarget | TgTo | TgFrom => Some LTargetDN | TgAttr => Some LAttrs | TgCtrl | TgExtOp => Some LOids | _ => None end.
Lemma target_list en c k style vals lk l : kind_of k = Some lk -> eqfold (c_kw c) (targetkw_name k) = true ->
  assert_target en (targetkw_const k) vals = AOk (XList lk false l) -> treads en c style vals (list_line style l).
Proof.
  intros I K A. unfold treads, tr_assert, raw. cbn [with_ex c_ex tr_keyword c_kw]. rewrite tkw_round, (known_target c k K), A.
  eexists. split; [reflexivity|]. cbn [tr_set_expression br_init on_cond with_quoted with_ex].
  assert (M := known_target c k K). rewrite <- style_line.
  destruct k; try discriminate I; cbn [kind_of] in I; injection I as <-; unfold tr_set_quote_style, tr_keyword, with_quoted, with_ex; cbn [c_ex c_kw]; rewrite M; reflexivity.
Qed.

(* ---- days of the week ---- *)
Theorem C98_days : forall en c style v (g : day -> bool), shifty_ok (e_shifty en) ->
  eqfold (c_kw c) "dayofweek" = true ->
  let items := day_items (unquote (condenseWHSP v)) in
  (Forall (fun i => exists d, names_day i d) items -> (forall d, g d = true <-> Exists (fun i => names_day i d) items) ->
     reads en c style [v] (in_quotes (join "," (map day_name (filter g all_days))))) /\
  (~ Forall (fun i => exists d, names_day i d) items -> refuses en c style [v]).
Proof.
  intros en c style v g OK K items. assert (H := parse_spec (e_shifty en) OK (unquote (condenseWHSP v))).
  assert (E : assert_bind en (bindkw_const DayOfWeek) [v] =
    of_opt (fun d => XText (dow_string (e_shifty en) d)) (parseDoW (e_shifty en) (unquote (condenseWHSP v)))) by reflexivity.
  split.
  - intros F G. destruct (parseDoW _ _) as [o|]; [|contradiction]. apply (bind_text en c DayOfWeek); [exact K|]. rewrite E. cbn [of_opt].
    do 2 f_equal. destruct H as (_ & (n & -> & Hn) & P).
    assert (ST : dstate (Some n) g).
    { split; [exact Hn|]. intros d. apply eq_true_iff_eq. rewrite G. unfold items. rewrite <- (P d).
      assert (S' : dstate (Some n) (fun d => N.testbit n (day_pos d))) by (split; easy).
      now rewrite (dpositive_state (e_shifty en) OK _ _ d S'). }
    rewrite (dstring_state (e_shifty en) OK _ g ST). unfold days_text.
    assert (NE : filter g all_days <> []).
    { assert (NI : items <> []).
      { apply split1_nonnil. }
      destruct items as [|i items']; [easy|]. inversion F as [|? ? [d Hd] _]. intros X.
      assert (In d (filter g all_days)) as Y; [|now rewrite X in Y]. apply filter_In. split; [destruct d; cbn; tauto|].
      apply G. now constructor. }
    now destruct (filter g all_days).
  - intros F. apply (bind_err en c DayOfWeek); [exact K|]. rewrite E. destruct (parseDoW _ _) as [o|]; [|reflexivity].
    destruct F. apply H.
Qed.

Theorem C98_days_one : forall en c style vals, eqfold (c_kw c) "dayofweek" = true ->
  List.length vals <> 1%nat -> refuses en c style vals.
Proof.
  intros en c style vals K L. apply (bind_err en c DayOfWeek); [exact K|]. destruct vals as [|? [|? ?]]; try reflexivity. now destruct L.
Qed.

(* ---- names of users, roles and groups ---- *)
(* the text shown for one value: a URI with a question mark, or a name *)
Definition name_shown (parse_uri : string -> option string) (v : string) : string :=
  if (has_prefix "ldap:///" v && scontains "?" v)%bool
  then match parse_uri v with Some t => t | None => "" end
  else "ldap:///" ++ chopDNPfx (chopDNPfx (condenseWHSP v)).
Lemma dn_push_text bad uris kw l x t : push_cast uris kw x = Some t ->
  map (dmember_string bad) (dn_push eqfold bad uris kw l [x]) =
  if existsb (fun y => eqfold y (dmember_string bad t)) (map (dmember_string bad) l)
  then map (dmember_string bad) l else (map (dmember_string bad) l ++ [dmember_string bad t])%list.
Proof.
  intros P. cbn [dn_push]. rewrite P. unfold push1, dn_policy, dn_contains. rewrite existsb_map.
  destruct (existsb _ l); cbn [negb]; [reflexivity|]. now rewrite map_app.
Qed.
Lemma accepted_nonempty s : dn_accepted s -> s <> "".
Proof. intros [L _] ->. cbn in L. lia. Qed.
Lemma cast_dn uris kw D : D <> "" -> push_cast uris kw (DDN (Some (newDistinguishedName D kw))) = Some (MDN (Some (MkDN kw (Some (chopDNPfx D))))).
Proof.
  intros N. unfold newDistinguishedName. rewrite (proj2 (len0f D) N). cbn [push_cast dn_isZero negb andb dn_kw]. now rewrite N.eqb_refl.
Qed.
Lemma bdn_read pu kw vs : (forall v, In v vs -> bind_value_ok pu v) -> forall l, exists l',
  bdn_setExpressionValues eqfold badBDN true pu kw l vs = (l', true) /\
  map (dmember_string badBDN) l' = (map (dmember_string badBDN) l ++ firsts_by eqfold (map (name_shown pu) vs) (map (dmember_string badBDN) l))%list.
Proof.
  induction vs as [|v vs IH]; intros H l.
  - exists l. split; [reflexivity|]. cbn [map firsts_by]. now rewrite app_nil_r.
  - assert (Hv := H v (or_introl eq_refl)). unfold bind_value_ok in Hv. cbn [bdn_setExpressionValues map]. unfold LocalScheme in *.
    assert (ST : forall x t, push_cast true kw x = Some t -> dmember_string badBDN t = name_shown pu v -> exists l',
      bdn_setExpressionValues eqfold badBDN true pu kw (dn_push eqfold badBDN true kw l [x]) vs = (l', true) /\
      map (dmember_string badBDN) l' = (map (dmember_string badBDN) l ++ firsts_by eqfold (name_shown pu v :: map (name_shown pu) vs) (map (dmember_string badBDN) l))%list).
    { intros x t P T. destruct (IH (fun w Hw => H w (or_intror Hw)) (dn_push eqfold badBDN true kw l [x])) as (l' & A & B).
      exists l'. split; [exact A|]. rewrite B, (dn_push_text _ _ _ _ _ _ P), T. cbn [firsts_by].
      destruct (existsb _ _); [reflexivity|]. now rewrite <- app_assoc. }
    unfold name_shown in ST |- *. destruct (has_prefix "ldap:///" v && scontains "?" v)%bool.
    + destruct (pu v) as [t|]; [|easy]. now apply (ST (DURI t) (MURI t)).
    + destruct Hv as [D Q]. rewrite (proj2 (syntax_iff _) D). unfold contains_byte in Q. rewrite <- contains1 in Q.
      apply not_true_is_false in Q. rewrite Q. cbn [negb andb].
      apply (ST _ _ (cast_dn true kw _ (accepted_nonempty _ D))). reflexivity.
Qed.
Theorem C98_names : forall en c k style v0 vals, e_eqf en = eqfold -> In k [UserDN; RoleDN; GroupDN] ->
  eqfold (c_kw c) (bindkw_name k) = true ->
  let pu := uri_text (bindkw_const k) in
  let ok := (3 <= String.length (unquote (condenseWHSP v0)))%nat /\ forall v, In v (v0 :: vals) -> bind_value_ok pu v in
  (ok -> reads en c style (v0 :: vals) (list_line style (firsts_by eqfold (map (name_shown pu) (v0 :: vals)) []))) /\
  (~ ok -> refuses en c style (v0 :: vals)) /\
  refuses en c style [].
Proof.
  intros en c k style v0 vals F I K pu ok.
  assert (E : forall vs, assert_bind en (bindkw_const k) vs = of_opt (fun l => XList LBindDN false (map (dmember_string badBDN) l))
           (assertBindUGRDN eqfold badBDN true pu (bindkw_const k) vs)).
  { intros vs. rewrite <- F. destruct I as [<-|[<-|[<-|[]]]]; reflexivity. }
  split; [|split].
  - intros [L H]. destruct (bdn_read pu (bindkw_const k) (v0 :: vals) H []) as (l' & A & B). apply (bind_list en c k); [exact I|exact K|].
    rewrite E. unfold assertBindUGRDN. apply Nat.ltb_ge in L. rewrite L, A. cbn [of_opt]. now rewrite B.
  - intros N. apply (bind_err en c k); [exact K|]. rewrite E. destruct (assertBindUGRDN _ _ _ _ _ _) eqn:X; [|reflexivity].
    destruct N. exact (proj1 (C28_exact_bind pu (bindkw_const k) v0 vals) (ex_intro _ _ X)).
  - apply (bind_err en c k); [exact K|]. now rewrite E.
Qed.

(* ---- targets ---- *)
Definition target_shown (v : string) : string := "ldap:///" ++ chopDNPfx (chopDNPfx (condenseWHSP v)).
Lemma tdn_read kw vs : (forall v, In v vs -> dn_accepted (chopDNPfx (condenseWHSP v))) -> forall l, exists l',
  tdn_setExpressionValues eqfold badTDN false kw l vs = (l', true) /\
  map (dmember_string badTDN) l' = (map (dmember_string badTDN) l ++ firsts_by eqfold (map target_shown vs) (map (dmember_string badTDN) l))%list.
Proof.
  induction vs as [|v vs IH]; intros H l.
  - exists l. split; [reflexivity|]. cbn [map firsts_by]. now rewrite app_nil_r.
  - assert (D := H v (or_introl eq_refl)). cbn [tdn_setExpressionValues map]. rewrite (proj2 (syntax_iff _) D).
    assert (P := cast_dn false kw _ (accepted_nonempty _ D)).
    destruct (IH (fun w Hw => H w (or_intror Hw)) (dn_push eqfold badTDN false kw l [DDN (Some (newDistinguishedName (chopDNPfx (condenseWHSP v)) kw))])) as (l' & A & B).
    exists l'. split; [exact A|]. rewrite B, (dn_push_text _ _ _ _ _ _ P). cbn [firsts_by].
    change (dmember_string badTDN _) with (target_shown v). destruct (existsb _ _); [reflexivity|]. now rewrite <- app_assoc.
Qed.
Theorem C98_targets : forall en c k style vals, e_eqf en = eqfold -> In k [TgTarget; TgTo; TgFrom] ->
  eqfold (c_kw c) (targetkw_name k) = true ->
  let ok := vals <> [] /\ forall v, In v vals -> dn_accepted (chopDNPfx (condenseWHSP v)) in
  (ok -> treads en c style vals (list_line style (firsts_by eqfold (map target_shown vals) []))) /\
  (~ ok -> trefuses en c style vals).
Proof.
  intros en c k style vals F I K ok.
  assert (E : assert_target en (targetkw_const k) vals = of_opt (fun l => XList LTargetDN false (map (dmember_string badTDN) l))
           (assertTargetTFDN eqfold badTDN false (targetkw_const k) vals)).
  { rewrite <- F. destruct I as [<-|[<-|[<-|[]]]]; reflexivity. }
  split.
  - intros [L H]. destruct (tdn_read (targetkw_const k) vals H []) as (l' & A & B).
    apply (target_list en c k _ _ LTargetDN); [destruct I as [<-|[<-|[<-|[]]]]; reflexivity|exact K|].
    rewrite E. unfold assertTargetTFDN. destruct vals as [|v vals]; [easy|]. rewrite A. cbn [of_opt]. now rewrite B.
  - intros N. apply (target_err en c k); [exact K|]. rewrite E. destruct (assertTargetTFDN _ _ _ _ _) eqn:X; [|reflexivity].
    destruct N. exact (proj1 (C28_exact_target (targetkw_const k) vals) (ex_intro _ _ X)).
Qed.

(* ---- attributes of users and groups ---- *)
Lemma attr_reader en k v : In k [UserAttr; GroupAttr] ->
  assert_bind en (bindkw_const k) [v] =
  let t := unquote (condenseWHSP v) in
  if has_prefix "ldap:///" t then of_opt XText (uri_text (bindkw_const k) t)
  else if has_prefix "parent[" t then
    match parseInheritance (e_shifty en) t with IPanic => APanic | IErr => AErr | IOk i => AOk (XText (inh_string (e_shifty en) fmt_panic i)) end
  else match parseATBTV t [Some (bindkw_const k)] with None => AErr | Some a => AOk (XText (avbt_s a)) end.
Proof.
  intros I. unfold assert_bind. replace ((bindkw_const k =? BindUAT)%N || (bindkw_const k =? BindGAT)%N)%bool with true by (destruct I as [<-|[<-|[]]]; reflexivity).
  replace ((bindkw_const k =? BindUDN)%N || (bindkw_const k =? BindRDN)%N || (bindkw_const k =? BindGDN)%N)%bool with false by (destruct I as [<-|[<-|[]]]; reflexivity).
  replace (bindkw_const k =? BindIP)%N with false by (destruct I as [<-|[<-|[]]]; reflexivity).
  replace (bindkw_const k =? BindDNS)%N with false by (destruct I as [<-|[<-|[]]]; reflexivity).
  unfold assertBindUGAttr. cbv zeta. destruct (has_prefix "ldap:///" _).
  - destruct (uri_text (bindkw_const k) (unquote (condenseWHSP v))); reflexivity.
  - destruct (has_prefix "parent[" _); [now destruct (parseInheritance _ _)|now destruct (parseATBTV _ _)].
Qed.
Theorem C98_attr : forall en c k style v, In k [UserAttr; GroupAttr] -> eqfold (c_kw c) (bindkw_name k) = true ->
  let t := unquote (condenseWHSP v) in
  has_prefix "ldap:///" t = false -> has_prefix "parent[" t = false ->
  (forall a b, attr_name a -> b <> "" -> (forall n, (1 <= n <= 5)%N -> eqfold b (bt_string n) = false) ->
     t = a ++ "#" ++ b -> reads en c style [v] (in_quotes t)) /\
  (forall a b n, attr_name a -> (1 <= n <= 5)%N -> eqfold b (bt_string n) = true -> t = a ++ "#" ++ b ->
     reads en c style [v] (in_quotes (a ++ "#" ++ bt_string n))) /\
  ((forall a b, t = a ++ "#" ++ b -> ~ attr_name a) -> refuses en c style [v]).
Proof.
  intros en c k style v I K t P1 P2.
  assert (E := attr_reader en k v I). cbv zeta in E. fold t in E. rewrite P1, P2 in E.
  assert (Y : forall r a w, what_ok w -> ab_pair r = Some (pair_of a w) -> avbt_s r = a ++ "#" ++ what_text w).
  { intros r a w W B. unfold avbt_s, abtv_string. now rewrite B, pair_text. }
  split; [|split].
  - intros a b A NE B T. destruct (C23_read_value a b [Some (bindkw_const k)] A NE B) as (r & R1 & R2). rewrite <- T in R1.
    apply (bind_text en c k); [exact K|]. rewrite E, R1. do 2 f_equal.
    rewrite (Y r a (WValue b)); [now rewrite T| |exact R2]. split; [exact NE|].
    unfold matchBT. apply (bindtype_lookup btMap (Permutation_refl _) b). intros k'.
    replace (bindtype_name k') with (bt_string (bindtype_const k')) by now destruct k'. apply B. destruct k'; cbn; lia.
  - intros a b n A N B T. destruct (C23_read_type a b [Some (bindkw_const k)] n A N B) as (r & R1 & R2). rewrite <- T in R1.
    apply (bind_text en c k); [exact K|]. rewrite E, R1. do 2 f_equal. now rewrite (Y r a (WType n)).
  - intros N. apply (bind_err en c k); [exact K|]. rewrite E. destruct (parseATBTV t _) as [r|] eqn:R; [|reflexivity].
    destruct (proj1 (C23_accept t [Some (bindkw_const k)]) (ex_intro _ r R)) as (a & b & T & A). destruct (N a b T A).
Qed.
(* levels of inheritance, in any order and with repetitions; read as ascending *)
Theorem C98_attr_levels : forall en c k style v ns a w, shifty_ok (e_shifty en) -> In k [UserAttr; GroupAttr] ->
  eqfold (c_kw c) (bindkw_name k) = true -> ns <> [] -> (forall n, In n ns -> (n < 10)%N) -> attr_name a -> what_ok w ->
  unquote (condenseWHSP v) = "parent[" ++ join "," (map digit ns) ++ "]." ++ a ++ "#" ++ what_text w ->
  reads en c style [v] (in_quotes
    ("parent[" ++ join "," (map digit (filter (fun n => existsb (N.eqb n) ns) all_levels)) ++ "]." ++ a ++ "#" ++ what_text w)).
Proof.
  intros en c k style v ns a w OK I K NE Hns A W T. apply (bind_text en c k); [exact K|]. rewrite (attr_reader en k v I). cbv zeta. rewrite T.
  replace (has_prefix "ldap:///" ("parent[" ++ _)) with false by reflexivity. replace (has_prefix "parent[" ("parent[" ++ _)) with true by reflexivity.
  destruct (joined_digits ns NE Hns) as [J1 J2]. destruct (shift_digits (e_shifty en) OK ns NE Hns) as (S1 & S2 & S3).
  rewrite parse_shape by (exact J1 || apply lc_prefix7 || reflexivity). rewrite J2. cbv zeta.
  destruct (N.eqb_spec (lvl_shift (e_shifty en) 0 (map LStr (map digit ns))) 0) as [?|_]; [contradiction|].
  change ("#" ++ what_text w) with (String "#" (what_text w)).
  rewrite parse_hash by now apply attr_name_no_hash. rewrite (AT_name a A), what_read by exact W.
  change (Some (Some a), what_second w) with (pair_of a w). do 2 f_equal.
  unfold inh_string. cbn [in_abtv in_levels]. unfold abtv_isZero, abtv_string. cbn [ab_pair ab_kw]. rewrite pair_text by exact W.
  rewrite (levels_text (e_shifty en) OK) by assumption.
  replace (filter (fun n => N.testbit _ (n + 1)) all_levels) with (filter (fun n => existsb (N.eqb n) ns) all_levels); [reflexivity|].
  apply filter_ext_in'. intros n Hn. rewrite S3; [reflexivity|]. unfold all_levels in Hn. cbn [In] in Hn. lia.
Qed.
Theorem C98_attr_uri : forall en c k style v, In k [UserAttr; GroupAttr] -> eqfold (c_kw c) (bindkw_name k) = true ->
  let t := unquote (condenseWHSP v) in has_prefix "ldap:///" t = true ->
  (forall u, parseLDAPURI t [bindkw_const k] = Some u -> reads en c style [v] (in_quotes (uri_string u))) /\
  (parseLDAPURI t [bindkw_const k] = None -> refuses en c style [v]).
Proof.
  intros en c k style v I K t P. assert (E := attr_reader en k v I). cbv zeta in E. fold t in E. rewrite P in E. unfold uri_text in E.
  split.
  - intros u U. rewrite U in E. now apply (bind_text en c k).
  - intros U. rewrite U in E. now apply (bind_err en c k).
Qed.
Theorem C98_attr_one : forall en c k style vals, In k [UserAttr; GroupAttr] -> eqfold (c_kw c) (bindkw_name k) = true ->
  List.length vals <> 1%nat -> refuses en c style vals.
Proof.
  intros en c k style vals I K L. apply (bind_err en c k); [exact K|]. destruct vals as [|? [|? ?]]; [| |].
  - destruct I as [<-|[<-|[]]]; reflexivity.
  - now destruct L.
  - destruct I as [<-|[<-|[]]]; reflexivity.
Qed.

(* ---- scope ---- *)
Definition scope_shown (s : scope) : string :=
  match s with ScBase => "base" | ScOne => "onelevel" | ScSub => "subtree" | ScChildren => "subordinate" end.
Theorem C98_scope : forall en c style v, eqfold (c_kw c) "targetscope" = true ->
  let t := unquote (condenseWHSP v) in
  (forall s, names_scope t s -> treads en c style [v] (in_quotes (scope_shown s))) /\
  ((forall s, ~ names_scope t s) -> trefuses en c style [v]) /\
  (forall vals, List.length vals <> 1%nat -> trefuses en c style vals).
Proof.
  intros en c style v K t. destruct (C16_accept v) as [A B].
  assert (E : forall vs, assert_target en (targetkw_const TgScope) vs = of_opt (fun s => XText (scope_string s)) (assertTargetScope vs)) by reflexivity.
  split; [|split].
  - intros s H. apply (target_text en c TgScope); [exact K|]. rewrite E, (proj2 (A s) H). now destruct s.
  - intros H. apply (target_err en c TgScope); [exact K|]. rewrite E, (proj2 B H). reflexivity.
  - intros vals L. apply (target_err en c TgScope); [exact K|]. rewrite E. destruct vals as [|? [|? ?]]; try reflexivity. now destruct L.
Qed.

(* ---- filter ---- *)
Theorem C98_filter : forall en c style vals, eqfold (c_kw c) "targetfilter" = true ->
  (forall v, vals = [v] -> (3 <= String.length (unquote (condenseWHSP v)))%nat ->
     treads en c style vals (in_quotes (unquote (condenseWHSP v)))) /\
  ((forall v, vals = [v] -> (String.length (unquote (condenseWHSP v)) < 3)%nat) -> trefuses en c style vals).
Proof.
  intros en c style vals K.
  assert (E : assert_target en (targetkw_const TgFilter) vals = of_opt (fun f => XText (sf_string f)) (assertTargetFilter vals)) by reflexivity.
  split.
  - intros v -> L. apply (target_text en c TgFilter); [exact K|]. rewrite E. unfold assertTargetFilter. cbv zeta.
    rewrite (proj2 (Nat.ltb_ge _ _) L). cbn [of_opt]. do 2 f_equal. destruct (unquote (condenseWHSP v)); [cbn in L; lia|reflexivity].
  - intros H. apply (target_err en c TgFilter); [exact K|]. rewrite E. destruct vals as [|v [|? ?]]; try reflexivity.
    unfold assertTargetFilter. cbv zeta. now rewrite (proj2 (Nat.ltb_lt _ _) (H v eq_refl)).
Qed.

(* ---- attributes: every value is read as the first one ---- *)
Theorem C98_targetattr : forall en c style v vals, eqfold (c_kw c) "targetattr" = true ->
  let first := unquote (condenseWHSP v) in
  (attr_name first -> treads en c style (v :: vals) (list_line style (repeat first (S (List.length vals))))) /\
  (~ attr_name first -> trefuses en c style (v :: vals)) /\ trefuses en c style [].
Proof.
  intros en c style v vals K first. destruct (C31_exact v vals) as [A B]. fold first in A, B.
  assert (E : forall vs, assert_target en (targetkw_const TgAttr) vs = of_opt (fun l => XList LAttrs false (map at_string l)) (assertTargetAttributes vs)) by reflexivity.
  split; [|split].
  - intros H. destruct (A H) as (a & S & T). apply (target_list en c TgAttr _ _ LAttrs); [reflexivity|exact K|]. rewrite E, T. cbn [of_opt].
    do 2 f_equal. rewrite <- S. generalize (Datatypes.S (List.length vals)). intros n. induction n as [|n IH]; [reflexivity|]. cbn [repeat map]. now rewrite IH.
  - intros H. apply (target_err en c TgAttr); [exact K|]. now rewrite E, (B H).
  - apply (target_err en c TgAttr); [exact K|]. reflexivity.
Qed.

(* ---- object identifiers ---- *)
Theorem C98_oid : forall en c k style v vals, In k [TgCtrl; TgExtOp] -> eqfold (c_kw c) (targetkw_name k) = true ->
  (forall s t, e_dotnot en s = Some t -> t <> "" /\ t <> badDotNot) ->
  (e_dotnot en v <> None ->
     treads en c style (v :: vals) (list_line style (firsts_by (e_eqf en) (good_prefix (e_dotnot en) (v :: vals)) []))) /\
  (e_dotnot en v = None -> trefuses en c style (v :: vals)) /\ trefuses en c style [].
Proof.
  intros en c k style v vals I K D.
  assert (E : forall vs, assert_target en (targetkw_const k) vs = of_opt (fun l => XList LOids false (map omember_text (ol_mem l)))
           (assertTargetOID (e_eqf en) (e_dotnot en) (targetkw_const k) vs)) by (intros vs; destruct I as [<-|[<-|[]]]; reflexivity).
  assert (X := C30_exact (e_eqf en) (e_dotnot en) (targetkw_const k) v vals D).
  assert (I' : In (targetkw_const k) [TargetExtOp; TargetCtrl]) by (destruct I as [<-|[<-|[]]]; [right; left|left]; reflexivity).
  specialize (X I').
  split; [|split].
  - intros H. apply (target_list en c k _ _ LOids); [destruct I as [<-|[<-|[]]]; reflexivity|exact K|]. rewrite E, X.
    destruct (e_dotnot en v); [|easy]. cbn [of_opt ol_mem]. rewrite map_map. do 2 f_equal. rewrite <- (map_id (firsts_by _ _ _)) at 2.
    apply map_ext. intros t. destruct I as [<-|[<-|[]]]; reflexivity.
  - intros H. rewrite H in X. apply (target_err en c k); [exact K|]. now rewrite E, X.
  - apply (target_err en c k); [exact K|]. now rewrite E.
Qed.

(* ---- attribute filters ---- *)
Definition opsym (o : N) : string := if (o =? DelOp)%N then "delete" else "add".
Theorem C98_attrfilters : forall en c style d ops, eqfold (c_kw c) "targattrfilters" = true ->
  d = ","%char \/ d = ";"%char -> ops <> [] -> NoDup ops -> (forall o, In o ops -> op_ok o) ->
  (forall o i e, In o ops -> In i (snd o) -> e = ","%char \/ e = ";"%char -> ~ In e (chars (fst i)) /\ ~ In e (chars (snd i))) ->
  (forall o i, In o ops -> In i (snd o) -> ~ occurs "add=" (snd i) /\ ~ occurs "delete=" (snd i)) ->
  let texts := map (fun o => opsym (fst o) ++ "=" ++ join " && " (map item_text (snd o))) ops in
  treads en c style [join (String d "") texts] (in_quotes (join "," texts)).
Proof.
  intros en c style d ops K D N ND O F P texts.
  assert (E : map built_op ops = map mk_op ops) by (apply map_ext_in; intros o Ho; now apply built_op_mk, O).
  assert (OK : Forall ok_op ops) by (rewrite Forall_forall; intros o Ho; now apply op_ok_iff, O).
  assert (T : forall e, afos_string (MkAFOs e (map built_op ops)) = join (String e "") texts).
  { intros e. rewrite E, mk_ops_string by exact OK. reflexivity. }
  apply (target_text en c TgAttrFilters); [exact K|].
  replace (assert_target _ _ _) with (of_opt (fun a => XText (afos_string a)) (assertTargetAttrFilters [join (String d "") texts])) by reflexivity.
  rewrite <- (T d), C33_rule by assumption. cbn [of_opt]. now rewrite T.
Qed.
Lemma name_no_eq a : attr_name a -> no_byte "=" a = true.
Proof. intros H. now apply attr_name_no. Qed.
(* a value without an operation word is one addition *)
Theorem C98_bare_filter : forall en c style v a f, eqfold (c_kw c) "targattrfilters" = true ->
  unquote (condenseWHSP v) = a ++ ":" ++ f -> attr_name a -> f <> "" ->
  (forall e, e = ","%char \/ e = ";"%char -> ~ In e (chars a) /\ ~ In e (chars f)) ->
  treads en c style [v] (in_quotes ("add=" ++ a ++ ":" ++ f)).
Proof.
  intros en c style v a f K T A NF X. apply (target_text en c TgAttrFilters); [exact K|].
  replace (assert_target _ _ _) with (of_opt (fun a => XText (afos_string a)) (assertTargetAttrFilters [v])) by reflexivity.
  unfold assertTargetAttrFilters. cbv zeta. rewrite T.
  assert (NE : a <> "") by now apply attr_name_nonempty.
  assert (L : (String.length (a ++ ":" ++ f) <? 3)%nat = false).
  { apply Nat.ltb_ge. rewrite !length_app. destruct a; [easy|]. destruct f; [easy|]. cbn [String.length]. lia. }
  rewrite L.
  assert (NB : forall e, e = ","%char \/ e = ";"%char -> idx e (a ++ ":" ++ f) = None).
  { intros e He. apply idx_none, no_byte_chars. intros H. destruct (X e He) as [X1 X2]. rewrite !chars_app in H.
    apply in_app_or in H as [H|H]; [contradiction|]. apply in_app_or in H as [H|H]; [|contradiction]. destruct H as [H|[]].
    destruct He as [->| ->]; discriminate H. }
  rewrite !NB by tauto.
  assert (PF : hasAFOPrefix (a ++ ":" ++ f) = false).
  { assert (Q := name_no_eq a A). unfold hasAFOPrefix. change (":" ++ f) with (String ":" f).
    rewrite !prefix_sep by reflexivity. apply orb_false_iff.
    split; (destruct (has_prefix _ a) eqn:H; [|reflexivity]); apply has_prefix_spec in H as [z ->]; rewrite no_byte_app in Q; discriminate Q. }
  rewrite PF, parse_filter_item, filter_some by assumption. cbn [of_opt]. do 2 f_equal.
  destruct (item_string (a, f) NE NF) as [S V]. cbn [fst snd] in S, V. unfold mk_item in S, V. cbn [fst snd] in S, V.
  assert (Q : aop_AFO AddOp [AOFilter (Some (Some a, Some f))] = MkAFO AddOp [Some (Some a, Some f)]).
  { unfold aop_AFO, afo_push. cbn [fold_left afo_push1 afo_op afo_mem]. unfold push1, afo_policy. cbn [afo_contains existsb]. now rewrite V. }
  replace (aop_AFO _ _) with (MkAFO AddOp [Some (Some a, Some f)]) by (symmetry; exact Q). unfold AFOs1, push1, afos_policy, afos_string. cbn [afos_contains existsb afo_mem List.length Nat.ltb Nat.leb app afos_mem map join].
  unfold afo_string. cbn [afo_mem map join afo_op]. change (af_string _) with (af_string (Some (Some a, Some f))). rewrite S. reflexivity.
Qed.

(* ---- everything else ---- *)
Theorem C98_other : forall en c style vals,
  ((forall k, eqfold (c_kw c) (bindkw_name k) = false) -> refuses en c style vals) /\
  ((forall k, eqfold (c_kw c) (targetkw_name k) = false) -> trefuses en c style vals) /\
  ((forall st vs, c_ex c <> Some (XRaw st vs)) -> br_assert en (Some c) = RErr /\ tr_assert en (Some c) = RErr) /\
  br_assert en None = RErr /\ tr_assert en None = RErr.
Proof.
  intros en c style vals. repeat apply conj; try reflexivity.
  - intros H. unfold refuses, br_assert, raw. cbn [with_ex c_ex br_keyword c_kw]. rewrite bkw_round.
    replace (matchBKW (c_kw c)) with 0%N; [reflexivity|]. symmetry. now apply (bindkw_lookup _ (Permutation_refl _) (c_kw c)).
  - intros H. unfold trefuses, tr_assert, raw. cbn [with_ex c_ex tr_keyword c_kw]. rewrite tkw_round.
    replace (matchTKW (c_kw c)) with 0%N; [reflexivity|]. symmetry. now apply (targetkw_lookup _ (Permutation_refl _) (c_kw c)).
  - intros H. split; [unfold br_assert|unfold tr_assert]; (destruct (c_ex c) as [[| |st vs]|]; try reflexivity); now destruct (H st vs).
Qed.
(* the only crash: userattr or groupattr with a text that ends at its first closing bracket *)
Theorem C98_crash : forall en c style vals,
  br_assert en (raw c style vals) = RPanic <->
  exists k v p lv, In k [UserAttr; GroupAttr] /\ eqfold (c_kw c) (bindkw_name k) = true /\ vals = [v] /\
    unquote (condenseWHSP v) = p ++ lv ++ "]" /\ p = "parent[" /\ no_byte "]" lv = true.
Proof.
  intros en c style vals. unfold br_assert, raw. cbn [with_ex c_ex br_keyword c_kw]. rewrite bkw_round. split.
  - destruct (matchBKW_cases (c_kw c)) as [E|(k & E & K)]; [rewrite E; discriminate|]. rewrite E. intros H.
    assert (I : In k [UserAttr; GroupAttr]).
    { destruct k; cbn [In]; try tauto; exfalso; revert H.
      1-3: change (bindkw_const _) with BindUDN || change (bindkw_const _) with BindRDN || change (bindkw_const _) with BindGDN.
      all: unfold assert_bind; cbn [N.eqb Pos.eqb BindUDN BindRDN BindGDN BindIP BindDNS BindUAT BindGAT BindDoW BindToD BindAM BindSSF bindkw_const orb];
        unfold of_opt; match goal with |- context [match match ?x with _ => _ end with _ => _ end] => destruct x end; discriminate. }
    destruct vals as [|v [|? ?]].
    1,3: exfalso; revert H; destruct I as [<-|[<-|[]]]; discriminate.
    rewrite (attr_reader en k v I) in H. cbv zeta in H. set (t := unquote (condenseWHSP v)) in *.
    destruct (has_prefix "ldap:///" t); [now destruct (uri_text _ t)|].
    destruct (has_prefix "parent[" t) eqn:P; [|now destruct (parseATBTV t _)].
    destruct (parseInheritance (e_shifty en) t) eqn:Q; try discriminate H.
    apply C07_exact in Q as (p & lv & T & L & N & _). exists k, v, p, lv. split; [exact I|]. split; [exact K|]. split; [reflexivity|].
    split; [exact T|]. split; [|exact N]. apply has_prefix_spec in P as [z Z]. rewrite Z in T.
    symmetry. now apply (proj1 (app_inj_len _ _ _ _ T (eq_sym L))).
  - intros (k & v & p & lv & I & K & -> & T & -> & N). rewrite (known_bind c k K), (attr_reader en k v I). cbv zeta. rewrite T.
    replace (has_prefix "ldap:///" ("parent[" ++ _)) with false by reflexivity. replace (has_prefix "parent[" ("parent[" ++ _)) with true by reflexivity.
    replace (parseInheritance (e_shifty en) ("parent[" ++ lv ++ "]")) with IPanic; [reflexivity|]. symmetry. apply C07_exact.
    exists "parent[", lv. repeat split; [exact N|]. apply lc_prefix7.
Qed.
Theorem C98_no_target_crash : forall en r, tr_assert en r <> RPanic.
Proof.
  intros en r. unfold tr_assert. destruct r as [c|]; [|discriminate]. destruct (c_ex c) as [[| |st vs]|]; try discriminate.
  assert (X : assert_target en (matchTKW (tkw_string (tr_keyword (Some c)))) vs <> APanic).
  { unfold assert_target, of_opt. repeat match goal with |- context [if ?b then _ else _] => destruct b end; try discriminate;
    match goal with |- context [match ?x with _ => _ end] => destruct x end; discriminate. }
  destruct (assert_target _ _ _); [easy|discriminate..].
Qed.
Print Assumptions C98_days.
Print Assumptions C98_days_one.
Print Assumptions C98_names.
Print Assumptions C98_targets.
Print Assumptions C98_attr.
Print Assumptions C98_attr_levels.
Print Assumptions C98_attr_uri.
Print Assumptions C98_attr_one.
Print Assumptions C98_scope.
Print Assumptions C98_filter.
Print Assumptions C98_targetattr.
Print Assumptions C98_oid.
Print Assumptions C98_attrfilters.
Print Assumptions C98_bare_filter.
Print Assumptions C98_other.
Print Assumptions C98_crash.
Print Assumptions C98_no_target_crash.

Definition kcond (kw : string) : cond := MkCond kw (Some Eq) None false true true.
Example C98_witness_bind :
  Forall (fun i => exists d, names_day i d) (day_items (unquote (condenseWHSP """mon,SUNDAY, mon"""))) /\
  reads en_ref (kcond "dayofweek") 0 ["""mon,SUNDAY, mon"""] (in_quotes "Sun,Mon") /\
  refuses en_ref (kcond "dayofweek") 0 ["moon"] /\
  reads en_ref (kcond "roledn") 0 ["ldap:///cn=a"; "CN=b"; "cn=A"] (in_quotes "ldap:///cn=a" ++ " || " ++ in_quotes "ldap:///CN=b") /\
  reads en_ref (kcond "groupdn") 1 ["cn=a"; "cn=b"] (in_quotes "ldap:///cn=a || ldap:///cn=b") /\
  refuses en_ref (kcond "userdn") 0 ["cn=a"; "b"] /\
  reads en_ref (kcond "groupattr") 0 ["""manager#userdn"""] (in_quotes "manager#USERDN") /\
  reads en_ref (kcond "userattr") 0 ["parent[3,0,3].owner#x"] (in_quotes "parent[0,3].owner#x") /\
  reads en_ref (kcond "userattr") 0 ["ldap:///cn=a?cn#USERDN"] (in_quotes "ldap:///cn=a?cn#USERDN") /\
  refuses en_ref (kcond "userattr") 0 ["manager"] /\
  br_assert en_ref (raw (kcond "userattr") 0 ["parent[1]"]) = RPanic.
Proof.
  split.
  - apply (proj1 (C09_accept shifty_ref shifty_ref_ok _)). eexists. vm_compute. reflexivity.
  - repeat apply conj; try (eexists; split; vm_compute; reflexivity); vm_compute; reflexivity.
Qed.
Example C98_witness_target :
  treads en_ref (kcond "targetscope") 0 ["""BASE"""] (in_quotes "base") /\
  trefuses en_ref (kcond "targetscope") 0 ["none"] /\
  treads en_ref (kcond "targetfilter") 0 ["a=b"] (in_quotes "a=b") /\ trefuses en_ref (kcond "targetfilter") 0 ["a="] /\
  treads en_ref (kcond "targetattr") 0 ["cn"; "sn"] (in_quotes "cn" ++ " || " ++ in_quotes "cn") /\
  treads en_ref (kcond "target_to") 0 ["""cn=a"""] "ldap:///""cn=a""" /\
  treads en_ref (kcond "targattrfilters") 0 ["cn:(a=b)"] (in_quotes "add=cn:(a=b)") /\
  trefuses en_ref (kcond "nothing") 0 ["x"] /\
  (let en := MkEnv eqfold (fun s => if (String.length s <? 3)%nat then None else Some s) shifty_ref authNames false in
   treads en (kcond "extop") 1 ["1.3.6"; "1.3.6"; "2.5.4"; "9"; "1.2.3"] (in_quotes "1.3.6 || 2.5.4") /\
   trefuses en (kcond "targetcontrol") 1 ["9"; "1.2.3"]).
Proof. repeat apply conj; try (eexists; split; vm_compute; reflexivity); vm_compute; reflexivity. Qed.
