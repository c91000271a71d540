(* Lemmas for the LDAP URI properties. *)
From Coq Require Import String Ascii List PeanoNat NArith Bool Lia.
From Verif Require Import GoStr GoStrFacts MMisc MKw MSec MAttr MLevels MLists MFilter MUri SMisc SAttr SLists SFilter SUri PMisc PAttr PNet PLists PFilter.
Import ListNotations.
Open Scope string_scope.

Lemma scheme_chop d : ~ (exists r, d = "ldap:///" ++ r) -> chopDNPfx d = d.
Proof.
  intros H. unfold chopDNPfx. destruct (has_prefix LocalScheme d) eqn:E; [|reflexivity].
  apply has_prefix_spec in E as [r E]. destruct H. now exists r.
Qed.
Lemma parse_text comps kws : components_ok comps ->
  parseLDAPURI (uri_text comps) kws = uri_components uri_new 0 comps kws.
Proof.
  intros [N C]. unfold parseLDAPURI, uri_text. change "ldap:///" with LocalScheme. rewrite has_prefix_app, sdrop_app. cbn [negb].
  now rewrite split1_join; [|exact N|intros x Hx; apply no_byte_chars, C].
Qed.
Lemma parse_is_text x kws u : parseLDAPURI x kws = Some u -> exists comps, components_ok comps /\ x = uri_text comps.
Proof.
  unfold parseLDAPURI. destruct (has_prefix LocalScheme x) eqn:E; [|discriminate]. intros _.
  apply has_prefix_spec in E as [r ->]. exists (split1 "?" r). split.
  - split; [apply split1_nonnil|]. intros c Hc. apply no_byte_chars. now apply (split1_no "?" r).
  - unfold uri_text. now rewrite join_split1.
Qed.

(* attribute lists *)
Lemma at_push_names l A : keeps attr_name l A -> forall seen,
  fold_left (fun A s => at_push A [AType (AT s)]) l seen = (seen ++ map Some A)%list.
Proof.
  induction 1 as [|x l A Hx H IH|x l A Hx H IH]; intros seen; cbn [fold_left map]; [now rewrite app_nil_r| |]; rewrite IH;
  unfold at_push; cbn [fold_left at_push1]; unfold push1, at_pushPolicy; cbn [at_contains].
  - rewrite (AT_name x Hx). cbn [at_isZero]. rewrite (proj2 (len0f x)) by now apply attr_name_nonempty. cbn [negb]. now rewrite <- app_assoc.
  - destruct (AT_iff x) as [[_ E]|[-> _]]; [easy|]. reflexivity.
Qed.
Lemma transfer_names A : (forall x, In x A -> x <> "") -> forall seen, at_push seen (map AType (map Some A)) = (seen ++ map Some A)%list.
Proof.
  unfold at_push. induction A as [|x A IH]; intros H seen; cbn [map fold_left at_push1]; [now rewrite app_nil_r|].
  unfold push1 at 1. unfold at_pushPolicy at 1. cbn [at_contains at_isZero]. rewrite (proj2 (len0f x)) by (apply H; now left). cbn [negb].
  rewrite IH by (intros y Hy; apply H; now right). now rewrite <- app_assoc.
Qed.
Lemma keeps_good {A} (P : A -> Prop) l l' : keeps P l l' -> forall x, In x l' -> P x.
Proof. induction 1; intros y Hy; [easy| |auto]. destruct Hy as [<-|Hy]; auto. Qed.
Lemma keeps_all {A} (P : A -> Prop) l : (forall x, In x l -> P x) -> keeps P l l.
Proof. induction l as [|x l IH]; intros H; constructor; [apply H; now left|apply IH; intros y Hy; apply H; now right]. Qed.
Lemma keeps_ex l : exists l', keeps attr_name l l'.
Proof.
  induction l as [|x l [l' IH]]; [exists []; constructor|]. destruct (AT_iff x) as [[_ E]|[_ E]]; [exists (x :: l')|exists l']; now constructor.
Qed.
Lemma listed_ex s : exists names, listed s names.
Proof.
  destruct (keeps_ex (split1 "," (remove_byte " " s))) as [l' H]. exists l', (split1 "," (remove_byte " " s)).
  split; [|split; [apply join_split1|split; [apply split1_nonnil|exact H]]]. intros x Hx. apply no_byte_chars. now apply (split1_no "," (remove_byte " " s)).
Qed.
Lemma atb_names r s names kws : ~ has_char "#" s -> s <> "" -> listed s names ->
  uriAssertATB r s kws = Some (MkURI (u_dn r) (u_scope r) (u_avbt r) (u_attrs r ++ map Some names)%list (u_filter r)).
Proof.
  intros H N (all & C & J & NE & K). unfold uriAssertATB. rewrite (proj2 (len0f s) N).
  destruct (scontains "#" s) eqn:E; [apply contains1 in E; contradiction|].
  assert (S : split1 "," (remove_byte " " s) = all).
  { rewrite <- J. apply split1_join; [exact NE|]. intros x Hx. now apply no_byte_chars, C. }
  rewrite S, (at_push_names all names K). cbn [app]. rewrite transfer_names; [reflexivity|].
  intros x Hx. apply attr_name_nonempty. now apply (keeps_good _ _ _ K).
Qed.
Definition atb_kw (kws : list N) : N := match kws with k :: _ => if (k =? BindGAT)%N then BindGAT else BindUAT | [] => BindUAT end.
Lemma atb_pair r a v kws : attr_name a ->
  uriAssertATB r (a ++ "#" ++ v) kws =
  Some (MkURI (u_dn r) (u_scope r) (MkABTV (atb_kw kws) (Some (Some (Some a), if negb (matchBT v =? 0)%N then SBT (matchBT v) else SAV (AV v))))
          (u_attrs r) (u_filter r)).
Proof.
  intros A. unfold uriAssertATB.
  assert (L : (String.length (a ++ "#" ++ v) =? 0)%nat = false) by (rewrite !length_app; apply Nat.eqb_neq; cbn; lia).
  assert (S : scontains "#" (a ++ "#" ++ v) = true) by (apply contains1; rewrite !chars_app; apply in_app_iff; right; now left).
  rewrite L, S. change ("#" ++ v) with (String "#" v). rewrite parse_hash by now apply attr_name_no_hash. rewrite (AT_name a A).
  cbn [assertATBTVBindKeyword]. unfold atb_kw. destruct kws as [|k kws]; [reflexivity|]. now destruct (k =? BindGAT)%N.
Qed.
Lemma atb_bad r s kws : has_char "#" s -> (forall a v, s = a ++ "#" ++ v -> ~ attr_name a) -> uriAssertATB r s kws = None.
Proof.
  intros H B. unfold uriAssertATB. destruct s as [|c s]; [destruct H|]. cbn [String.length Nat.eqb]. set (t := String c s) in *.
  replace (scontains "#" t) with true by (symmetry; now apply contains1).
  destruct (idx "#" t) as [n|] eqn:E.
  - destruct (idx_split "#" t n E) as (a & v & Et & Na & _). assert (NA := B a v Et). rewrite Et, parse_hash by exact Na.
    destruct (AT_iff a) as [[_ X]|[-> _]]; [contradiction|reflexivity].
  - apply idx_none, no_byte_chars in E. contradiction.
Qed.

(* the whole parse as a function of the first four components *)
Lemma components_four comps kws : comps <> [] ->
  exists f, (f = None /\ (List.length comps <= 3)%nat \/ f = Filter [comp comps 3]) /\
  uri_components uri_new 0 comps kws =
  match uriAssertATB (MkURI (UDN (comp comps 0)) noScope abtv_zero [] None) (comp comps 1) kws with
  | None => None
  | Some r => Some (MkURI (u_dn r) (if (0 <? String.length (comp comps 2))%nat then strToScope (comp comps 2) else noScope)
                      (u_avbt r) (u_attrs r) f)
  end.
Proof.
  intros N.
  assert (T : forall l r n, uri_components r (S (S (S (S n)))) l kws = Some r).
  { induction l as [|x l IH]; intros r n; [reflexivity|]. cbn [uri_components uri_component]. apply IH. }
  assert (U : forall d s, match uriAssertATB (MkURI d noScope abtv_zero [] None) s kws with
     | Some r => u_dn r = d /\ u_scope r = noScope /\ u_filter r = None | None => True end).
  { intros d s. unfold uriAssertATB. destruct (_ =? _)%nat; [now cbn|]. destruct (scontains _ _); [destruct (parseATBTV _ _); now cbn|now cbn]. }
  destruct comps as [|c0 [|c1 [|c2 [|c3 rest]]]]; [easy| | | |]; unfold comp; cbn [nth].
  - exists None. split; [left; split; [reflexivity|cbn; lia]|]. reflexivity.
  - exists None. split; [left; split; [reflexivity|cbn; lia]|]. cbn [uri_components uri_component]. cbn [uri_new u_scope u_avbt u_attrs u_filter].
    specialize (U (UDN c0) c1). destruct (uriAssertATB _ c1 kws) as [[d s a l f]|]; [|reflexivity]. cbn in U |- *. destruct U as (-> & -> & ->). reflexivity.
  - exists None. split; [left; split; [reflexivity|cbn; lia]|]. cbn [uri_components uri_component]. cbn [uri_new u_scope u_avbt u_attrs u_filter].
    specialize (U (UDN c0) c1). destruct (uriAssertATB _ c1 kws) as [[d s a l f]|]; [|reflexivity]. cbn in U |- *. destruct U as (-> & -> & ->).
    now destruct c2.
  - exists (Filter [c3]). split; [now right|]. cbn [uri_components uri_component]. cbn [uri_new u_scope u_avbt u_attrs u_filter].
    specialize (U (UDN c0) c1). destruct (uriAssertATB _ c1 kws) as [[d s a l f]|]; [|reflexivity]. cbn in U |- *. destruct U as (-> & -> & ->).
    rewrite T. now destruct c2.
Qed.
Lemma scope_word_spec s : scope_standard (if (0 <? String.length s)%nat then strToScope s else noScope) = scope_word s.
Proof.
  destruct s as [|c s]; [reflexivity|]. cbn [String.length Nat.ltb Nat.leb]. set (t := String c s). unfold strToScope, scope_word.
  assert (E : forall x l, strInSlice x l = existsb (String.eqb x) l).
  { intros x l. induction l as [|y l IH]; [reflexivity|]. cbn [strInSlice existsb]. rewrite IH. f_equal. }
  rewrite !E. set (x := lc t). cbn [existsb]. rewrite !orb_false_r.
  destruct (String.eqb_spec x "base"); [subst x; now rewrite e|]. destruct (String.eqb_spec x "baseobject"); [subst x; now rewrite e|].
  cbn [orb]. destruct (String.eqb_spec x "one"); [reflexivity|]. destruct (String.eqb_spec x "onelevel"); [reflexivity|].
  cbn [orb]. destruct (String.eqb_spec x "sub"); [reflexivity|]. destruct (String.eqb_spec x "subtree"); [reflexivity|]. cbn [orb].
  now destruct (String.eqb x "children" || String.eqb x "subordinate")%bool.
Qed.
Lemma matchBT_le v : (matchBT v <= 5)%N.
Proof.
  unfold matchBT. assert (G : forall l, (forall k n, In (k, n) l -> (k <= 5)%N) -> (tbl_match l v <= 5)%N).
  { induction l as [|[k n] l IH]; intros H; cbn [tbl_match]; [lia|]. destruct (eqfold _ _); [apply (H k n); now left|apply IH; intros k' n' H'; apply (H k' n'); now right]. }
  apply G. intros k n H. cbn in H. repeat destruct H as [H|H]; try contradiction; injection H as <- _; apply N.leb_le; reflexivity.
Qed.
