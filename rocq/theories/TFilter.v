(* C33, C34, C51, C53, C54: attribute filters and add=/delete= operations. *)
From Coq Require Import String Ascii List PeanoNat NArith Bool Lia.
From Verif Require Import GoStr GoStrFacts MMisc MKw MAttr MLists MFilter SMisc SAttr SLists SFilter PMisc PAttr PNet PLists PFilter.
Import ListNotations.
Open Scope string_scope.

(* the AttributeFilter built through the API from an attribute and a filter text *)
Definition built (i : string * string) : afilter := AF [FAT (AT (fst i)); FSF (Filter [snd i])].
(* the operation built through the API *)
Definition built_op (o : N * list (string * string)) : afo := aop_AFO (fst o) (map (fun i => AOFilter (built i)) (snd o)).
Definition op_ok (o : N * list (string * string)) : Prop :=
  (fst o = AddOp \/ fst o = DelOp) /\ snd o <> [] /\
  (forall i, In i (snd o) -> ascii_name (fst i) /\ item_filter (snd i)) /\ NoDup (snd o).
Definition op_word (n : N) : string := if (n =? AddOp)%N then "add" else "delete".

Lemma built_item i : ascii_name (fst i) -> item_filter (snd i) -> built i = mk_item i.
Proof.
  intros [A _] (N & _). unfold built, AF, atf_set. cbn [fold_left atf_set1 fst snd]. rewrite (AT_name _ A), filter_some; [reflexivity|].
  now apply neat_facts in N.
Qed.
Lemma op_ok_iff o : op_ok o <-> ok_op o.
Proof.
  unfold op_ok, ok_op, ok_item. rewrite Forall_forall. cbn [In]. intuition.
Qed.
Lemma push_items op l : Forall ok_item l -> forall seen, Forall ok_item seen -> NoDup (seen ++ l)%list ->
  afo_push (MkAFO op (map mk_item seen)) (map (fun i => AOFilter (mk_item i)) l) = MkAFO op (map mk_item (seen ++ l)%list).
Proof.
  induction 1 as [|i l Hi F IH]; intros seen Fs D; cbn [map]; [now rewrite app_nil_r|].
  unfold afo_push. cbn [fold_left]. fold (afo_push (afo_push1 (MkAFO op (map mk_item seen)) (AOFilter (mk_item i))) (map (fun i => AOFilter (mk_item i)) l)).
  assert (Fs' : Forall (fun i => attr_name (fst i) /\ snd i <> "") seen).
  { eapply Forall_impl; [|exact Fs]. intros j [[A _] (N & _)]. split; [exact A|]. now apply neat_facts in N. }
  destruct Hi as [[A A'] HF]. assert (NF : snd i <> "") by (destruct HF as (N & _); now apply neat_facts in N).
  assert (P := afo_push_item op seen i Fs' A). rewrite filter_some in P by exact NF.
  match type of P with _ = ?r => assert (Q : afo_push1 (MkAFO op (map mk_item seen)) (AOFilter (mk_item i)) = r) by exact P end. clear P.
  rewrite Q. clear Q. unfold has_filter. destruct (String.eqb_spec (snd i) ""); [easy|]. cbn [negb].
  replace (existsb (fun j => same_item j i) seen) with false.
  - replace (seen ++ i :: l)%list with ((seen ++ [i]) ++ l)%list in * by now rewrite <- app_assoc.
    apply IH; [|exact D]. apply Forall_app. split; [exact Fs|]. constructor; [|constructor]. now split; [split|].
  - symmetry. apply existsb_false. intros j Hj. destruct (same_item j i) eqn:E; [|reflexivity]. apply same_item_eq in E. subst j.
    apply NoDup_remove_2 in D. exfalso. apply D, in_app_iff. now left.
Qed.
Lemma built_op_mk o : op_ok o -> built_op o = mk_op o.
Proof.
  intros H. apply op_ok_iff in H. destruct H as (A & B & C & D). unfold built_op, aop_AFO.
  replace (aop_label (fst o)) with (fst o) by (destruct A as [<-|[<-|[]]]; reflexivity).
  replace (map (fun i => AOFilter (built i)) (snd o)) with (map (fun i => AOFilter (mk_item i)) (snd o)).
  - change (@nil afilter) with (map mk_item []). now rewrite push_items.
  - apply map_ext_in. intros i Hi. rewrite Forall_forall in C. destruct (C i Hi). now rewrite built_item.
Qed.

(* ---- C33 ---- *)
(* one attribute filter: its text is attribute, colon, filter, and it reads back *)
Theorem C33_filter : forall a f, attr_name a -> f <> "" ->
  af_string (built (a, f)) = a ++ ":" ++ f /\ parseAttributeFilter (a ++ ":" ++ f) = Some (built (a, f)).
Proof.
  intros a f A F. assert (E : built (a, f) = mk_item (a, f)).
  { unfold built, AF, atf_set. cbn [fold_left atf_set1 fst snd]. now rewrite (AT_name _ A), filter_some. }
  split.
  - rewrite E. apply (item_string (a, f)); [now apply attr_name_nonempty|exact F].
  - rewrite parse_filter_item, filter_some by assumption. now rewrite E.
Qed.
(* the Parse method, which also strips quotation marks and runs of blanks *)
Theorem C33_filter_method : forall a f, ascii_name a -> item_filter f -> (3 <= String.length a + String.length f)%nat ->
  (String.length a + String.length f <> 3)%nat ->
  af_parse (af_string (built (a, f))) = Some (built (a, f)).
Proof.
  intros a f A F L L'. destruct (C33_filter a f) as [-> P]; [apply A| |].
  { destruct F as (N & _). now apply neat_facts in N. }
  unfold af_parse. assert (OK : ok_item (a, f)) by now split.
  destruct (neat_facts _ (item_neat (a, f) OK)) as (_ & _ & C & _ & _). unfold item_text in C. cbn [fst snd] in C. rewrite C.
  rewrite unquote_plain.
  - rewrite P. replace (String.length (a ++ ":" ++ f) <? 5)%nat with false; [reflexivity|]. symmetry. apply Nat.ltb_ge.
    rewrite !length_app. cbn [String.length]. lia.
  - intros c H. destruct A as [A _]. destruct a as [|b a]; [now apply attr_name_nonempty in A|]. injection H as <-.
    destruct (is_quote b) eqn:Q; [exfalso|reflexivity]. assert (X : no_byte b (String b a) = true).
    { unfold is_quote in Q. rewrite !orb_true_iff, !Ascii.eqb_eq in Q.
      destruct Q as [[->| ->]| ->]; (apply attr_name_no; [exact A|reflexivity|discriminate]). }
    apply no_byte_chars in X. apply X. now left.
  - intros c H. destruct F as (N & _ & Q). destruct f as [|b f]; [now apply neat_facts in N|].
    replace (a ++ ":" ++ String b f) with ((a ++ ":") ++ String b f) in H by now rewrite app_assoc'. rewrite last_byte_app2 in H.
    destruct (is_quote c) eqn:IQ; [exfalso|reflexivity]. apply (Q c); [now apply is_quote_mark|now apply last_byte_ends].
Qed.
(* an operation of any number of distinct filters *)
Theorem C33_operation : forall o, op_ok o ->
  afo_string (built_op o) = op_word (fst o) ++ "=" ++ join " && " (map (fun i => fst i ++ ":" ++ snd i) (snd o)) /\
  afo_op (built_op o) = fst o /\ afo_mem (built_op o) = map built (snd o) /\
  parseAFO (afo_string (built_op o)) = Some (built_op o).
Proof.
  intros o H. rewrite (built_op_mk o H). apply op_ok_iff in H. rewrite mk_op_string by exact H. destruct H as (A & B & C & D).
  split; [|split; [|split]].
  - unfold op_text, item_text. destruct A as [<-|[<-|[]]]; reflexivity.
  - reflexivity.
  - unfold mk_op. cbn [afo_mem]. apply map_ext_in. intros i Hi. rewrite Forall_forall in C. destruct (C i Hi). now rewrite built_item.
  - now apply parse_op_text.
Qed.
(* a list of operations with either delimiter, read with that delimiter; the
   result is a list with the comma (see C53) *)
Theorem C33_list : forall c ops, c = ","%char \/ c = ";"%char -> ops <> [] -> NoDup ops ->
  (forall o, In o ops -> op_ok o) ->
  (forall o i, In o ops -> In i (snd o) ->
     ~ In c (chars (fst i)) /\ ~ In c (chars (snd i)) /\ ~ occurs "add=" (snd i) /\ ~ occurs "delete=" (snd i)) ->
  parseAFOs (afos_string (MkAFOs c (map built_op ops))) (Ascii.eqb c ";") = Some (MkAFOs "," (map built_op ops)).
Proof.
  intros c ops C N D O F.
  assert (E : map built_op ops = map mk_op ops) by (apply map_ext_in; intros o Ho; now apply built_op_mk, O). rewrite E.
  assert (OK : Forall ok_op ops) by (rewrite Forall_forall; intros o Ho; now apply op_ok_iff, O).
  rewrite mk_ops_string by exact OK. apply parse_ops_text; try assumption.
  - destruct C as [->| ->]; cbn; tauto.
  - rewrite Forall_forall. intros o Ho i Hi. now apply (F o i).
  - rewrite Forall_forall. intros o Ho i Hi. split; now apply (F o i).
Qed.
(* the reader of targattrfilters rules, which picks the delimiter itself *)
Theorem C33_rule : forall c ops, c = ","%char \/ c = ";"%char -> ops <> [] -> NoDup ops ->
  (forall o, In o ops -> op_ok o) ->
  (forall o i d, In o ops -> In i (snd o) -> d = ","%char \/ d = ";"%char -> ~ In d (chars (fst i)) /\ ~ In d (chars (snd i))) ->
  (forall o i, In o ops -> In i (snd o) -> ~ occurs "add=" (snd i) /\ ~ occurs "delete=" (snd i)) ->
  assertTargetAttrFilters [afos_string (MkAFOs c (map built_op ops))] = Some (MkAFOs "," (map built_op ops)).
Proof.
  intros c ops C N D O F P.
  assert (L : parseAFOs (afos_string (MkAFOs c (map built_op ops))) (Ascii.eqb c ";") = Some (MkAFOs "," (map built_op ops))).
  { apply C33_list; try assumption. intros o i Ho Hi. destruct (F o i c Ho Hi C), (P o i Ho Hi). tauto. }
  assert (E : map built_op ops = map mk_op ops) by (apply map_ext_in; intros o Ho; now apply built_op_mk, O).
  assert (OK : Forall ok_op ops) by (rewrite Forall_forall; intros o Ho; now apply op_ok_iff, O).
  rewrite E in *. rewrite mk_ops_string in * by exact OK. set (ts := map (fun o => op_text (fst o) (snd o)) ops) in *.
  assert (Fr : forall d, d = ","%char \/ d = ";"%char -> forall t, In t ts -> no_byte d t = true).
  { intros d Hd t Ht. apply in_map_iff in Ht as (o & <- & Ho). apply op_text_free.
    - destruct Hd as [->| ->]; cbn; tauto.
    - rewrite Forall_forall in OK. now apply OK.
    - intros i Hi. now apply (F o i). }
  assert (NT : ts <> []) by (subst ts; destruct ops; [easy|discriminate]).
  (* the text is the same after condensing and unquoting *)
  assert (S : unquote (condenseWHSP (join (String c "") ts)) = join (String c "") ts).
  { assert (Ne : neat (join (String c "") ts)).
    { apply neat_joinc; [|exact NT|].
      - destruct C as [->| ->]; (split; [discriminate|]); intros x [<-|[]]; now split.
      - rewrite Forall_forall. intros t Ht. apply in_map_iff in Ht as (o & <- & Ho). rewrite Forall_forall in OK. destruct (OK o Ho) as (A & B & G & _).
        now apply op_text_neat. }
    destruct (neat_facts _ Ne) as (_ & _ & -> & _ & _). apply unquote_plain.
    - intros x H. subst ts. destruct ops as [|o ops]; [easy|]. rewrite Forall_forall in OK. destruct (OK o (or_introl eq_refl)) as (A & _).
      cbn [map] in H. unfold op_text in H at 1. destruct (map _ ops); [cbn [join] in H|rewrite join_cons in H];
      destruct A as [A|[A|[]]]; rewrite <- A in H; injection H as <-; reflexivity.
    - intros x H. destruct (exists_last N) as (ops' & o & ->). assert (Ho : ok_op o) by (rewrite Forall_forall in OK; apply OK, in_app_iff; right; now left).
      assert (X : exists p, join (String c "") ts = p ++ op_text (fst o) (snd o)).
      { subst ts. clear. induction ops' as [|o' ops' [p IH]]; [now exists ""|]. cbn [app map].
        destruct (map (fun o => op_text (fst o) (snd o)) (ops' ++ [o])%list) as [|u us] eqn:M; [destruct ops'; discriminate|].
        rewrite join_cons, IH. exists (op_text (fst o') (snd o') ++ String c "" ++ p). now rewrite !app_assoc'. }
      destruct X as [p X]. rewrite X in H. destruct (op_text (fst o) (snd o)) as [|b s] eqn:Eo; [unfold op_text in Eo; destruct Ho as ([A|[A|[]]] & _); rewrite <- A in Eo; discriminate|].
      rewrite last_byte_app2, <- Eo in H. destruct Ho as (A & B & G & _). destruct (exists_last B) as (l' & i & Ei). rewrite Ei in *.
      apply Forall_app in G as [_ G]. inversion G as [|? ? [_ (Nf & _ & Q)] _]; subst.
      destruct (op_text_last (fst o) l' i) as [Lb|Lb]; [|exfalso; apply neat_facts in Nf; tauto].
      rewrite Lb in H. destruct (is_quote x) eqn:IQ; [exfalso|reflexivity]. apply (Q x); [now apply is_quote_mark|now apply last_byte_ends]. }
  unfold assertTargetAttrFilters. rewrite S.
  destruct ops as [|o ops]; [easy|]. destruct ops as [|o2 ops].
  - (* one operation: no delimiter in the text *)
    subst ts. cbn [map join] in *. assert (N1 := Fr ","%char (or_introl eq_refl) _ (or_introl eq_refl)).
    assert (N2 := Fr ";"%char (or_intror eq_refl) _ (or_introl eq_refl)). inversion OK as [|? ? Ho _]; subst.
    destruct (parse_op_plain o Ho) as [_ HP].
    assert (LEN : (String.length (op_text (fst o) (snd o)) <? 3)%nat = false).
    { apply Nat.ltb_ge. unfold op_text. rewrite !length_app. destruct Ho as ([<-|[<-|[]]] & _); cbn; lia. }
    destruct Ho as (A & B & G & Dd). rewrite LEN, (proj2 (idx_none _ _) N1), (proj2 (idx_none _ _) N2), HP, parse_op_text by assumption.
    unfold AFOs1, push1, afos_policy. cbn [afos_contains existsb]. cbn [mk_op afo_mem map]. rewrite map_length.
    replace (0 <? List.length (snd o))%nat with true by (destruct (snd o); [easy|reflexivity]). reflexivity.
  - cbn [map] in ts. subst ts. rewrite join_cons in *. set (t := op_text (fst o) (snd o)) in *.
    set (rest := join (String c "") _) in *.
    assert (LEN : (String.length (t ++ String c "" ++ rest) <? 3)%nat = false).
    { apply Nat.ltb_ge. rewrite length_app. subst t. unfold op_text. rewrite !length_app. rewrite Forall_forall in OK. destruct (OK o (or_introl eq_refl)) as ([A|[A|[]]] & _); rewrite <- A; cbn; lia. }
    rewrite LEN. assert (N1 : no_byte "," t = true) by (apply Fr; [now left|now left]).
    assert (N2 : no_byte ";" t = true) by (apply Fr; [now right|now left]).
    destruct C as [->| ->]; cbn [append] in *.
    + rewrite (idx_app "," t rest N1). exact L.
    + assert (N3 : no_byte "," (t ++ String ";" rest) = true).
      { rewrite no_byte_app, no_byte_cons, N1. cbn [andb Ascii.eqb Bool.eqb negb]. apply no_byte_join; [reflexivity|]. intros x Hx. apply Fr; [now left|now right]. }
      rewrite (proj2 (idx_none _ _) N3), (idx_app ";" t rest N2). exact L.
Qed.
(* The provisos are needed: a filter with two blanks in a row comes back with one. *)
Theorem C33_blanks_refuted :
  ~ (forall a f, ascii_name a -> f <> "" -> ~ occurs "&&" f ->
       parseAFO (afo_string (built_op (AddOp, [(a, f)]))) = Some (built_op (AddOp, [(a, f)]))).
Proof.
  intros H. specialize (H "cn" "(x=a  b)").
  assert (A : ascii_name "cn").
  { split; [left; apply identifier_iff; reflexivity|]. intros c Hc. cbn in Hc. repeat destruct Hc as [<-|Hc]; try contradiction; reflexivity. }
  specialize (H A ltac:(discriminate)). rewrite <- scontains_occurs in H. specialize (H ltac:(discriminate)). vm_compute in H. discriminate.
Qed.
Print Assumptions C33_filter.
Print Assumptions C33_filter_method.
Print Assumptions C33_operation.
Print Assumptions C33_list.
Print Assumptions C33_rule.
Print Assumptions C33_blanks_refuted.
Lemma NoDup_snoc {A} (l : list A) x : NoDup l -> ~ In x l -> NoDup (l ++ [x])%list.
Proof. intros D N. apply NoDup_Add with (a := x) (l := l); [|now split]. rewrite <- (app_nil_r l) at 1. apply Add_app. Qed.
Lemma NoDup_app_l {A} (l l' : list A) : NoDup (l ++ l')%list -> NoDup l.
Proof.
  induction l as [|x l IH]; intros D; [constructor|]. inversion D; subst. constructor; [|now apply IH].
  intros H. apply H1, in_app_iff. now left.
Qed.
Lemma word_check w : w <> "" -> all_bytes (fun c => ascii_byte c && negb (white c)) w = true -> word w.
Proof.
  intros N H. split; [exact N|]. intros c Hc. rewrite all_bytes_chars in H. specialize (H c Hc). apply andb_true_iff in H as [A B].
  split; [exact A|]. now destruct (white c).
Qed.
Lemma ascii_name_check a : isIdentifier a = true -> is_ascii a = true -> ascii_name a.
Proof.
  intros H A. split; [left; now apply identifier_iff|]. intros c Hc. unfold is_ascii in A. rewrite all_bytes_chars in A. now apply A.
Qed.
Definition witness_ops : list (N * list (string * string)) :=
  [(AddOp, [("cn", "(cn=a b)"); ("sn", "(&(x=1)(y=2))")]); (DelOp, [("cn", "(cn=a b)")])].
Lemma witness_filter f w ws : f = join " " (w :: ws) -> word w -> Forall word ws -> scontains "&&" f = false ->
  (exists p, f = p ++ ")") -> item_filter f.
Proof.
  intros E W Ws C [p L]. split; [now exists w, ws|]. split; [rewrite <- scontains_occurs, C; discriminate|].
  intros q Q [a Ea]. rewrite L in Ea. apply (f_equal last_byte) in Ea. rewrite !last_byte_app2 in Ea. injection Ea as <-.
  destruct Q as [Q|[Q|Q]]; discriminate.
Qed.
Example C33_witness :
  (forall o, In o witness_ops -> op_ok o) /\ NoDup witness_ops /\
  (forall o i d, In o witness_ops -> In i (snd o) -> d = ","%char \/ d = ";"%char -> ~ In d (chars (fst i)) /\ ~ In d (chars (snd i))) /\
  (forall o i, In o witness_ops -> In i (snd o) -> ~ occurs "add=" (snd i) /\ ~ occurs "delete=" (snd i)) /\
  afos_string (MkAFOs "," (map built_op witness_ops)) = "add=cn:(cn=a b) && sn:(&(x=1)(y=2)),delete=cn:(cn=a b)".
Proof.
  assert (F1 : item_filter "(cn=a b)").
  { apply (witness_filter _ "(cn=a" ["b)"]); try reflexivity; [|constructor; [|constructor]|exists "(cn=a b"; reflexivity];
    (apply word_check; [discriminate|reflexivity]). }
  assert (F2 : item_filter "(&(x=1)(y=2))").
  { apply (witness_filter _ "(&(x=1)(y=2))" []); try reflexivity; [|constructor|exists "(&(x=1)(y=2)"; reflexivity].
    apply word_check; [discriminate|reflexivity]. }
  assert (A1 : ascii_name "cn") by (apply ascii_name_check; reflexivity).
  assert (A2 : ascii_name "sn") by (apply ascii_name_check; reflexivity).
  split; [|split; [|split; [|split]]].
  - intros o [<-|[<-|[]]].
    + split; [now left|]. split; [discriminate|]. split.
      * intros i [<-|[<-|[]]]; now split.
      * constructor; [intros [H|[]]; discriminate|]. constructor; [easy|constructor].
    + split; [now right|]. split; [discriminate|]. split.
      * intros i [<-|[]]; now split.
      * constructor; [easy|constructor].
  - constructor; [intros [H|[]]; discriminate|]. constructor; [easy|constructor].
  - intros o i d Ho Hi Hd. rewrite <- !contains1.
    destruct Ho as [<-|[<-|[]]]; [destruct Hi as [<-|[<-|[]]]|destruct Hi as [<-|[]]]; destruct Hd as [->| ->]; split; discriminate.
  - intros o i Ho Hi. rewrite <- !scontains_occurs.
    destruct Ho as [<-|[<-|[]]]; [destruct Hi as [<-|[<-|[]]]|destruct Hi as [<-|[]]]; split; discriminate.
  - reflexivity.
Qed.

(* ---- C34 ---- *)
(* False: an item without a filter is accepted and dropped (alone, or among
   others), and so is a repeated item. *)
Theorem C34_all_items_refuted :
  ~ (forall op items o, Forall (fun i => attr_name (fst i)) items ->
       parseAFO (op_word op ++ "=" ++ join " && " (map item_text items)) = Some o -> List.length (afo_mem o) = List.length items).
Proof.
  intros H. assert (A : attr_name "cn") by (left; apply identifier_iff; reflexivity).
  assert (A2 : attr_name "sn") by (left; apply identifier_iff; reflexivity).
  specialize (H AddOp [("cn", ""); ("sn", "(x=1)")] _ ltac:(constructor; [exact A|constructor; [exact A2|constructor]]) eq_refl). vm_compute in H. discriminate.
Qed.
Example C34_dropped :
  parseAFO "add=cn:" = Some (MkAFO AddOp []) /\
  parseAFO "add=cn: && sn:(x=1)" = Some (MkAFO AddOp [built ("sn", "(x=1)")]) /\
  parseAFO "add=cn:(x=1) && cn:(x=1)" = Some (MkAFO AddOp [built ("cn", "(x=1)")]).
Proof. repeat split; reflexivity. Qed.
(* Exactly which texts are accepted, and with which members: every item, trimmed,
   is a valid attribute name, a colon and a rest; the members are the items whose
   rest is not empty, each once, in order of first occurrence. *)
Theorem C34_exact : forall raw o,
  parseAFO raw = Some o <->
  exists op val items,
    (5 <= String.length (unquote (condenseWHSP raw)))%nat /\
    (op = AddOp \/ op = DelOp) /\
    unquote (condenseWHSP raw) = op_word op ++ "=" ++ val /\
    Forall2 (fun piece i => trim_space piece = fst i ++ ":" ++ snd i /\ attr_name (fst i)) (split2 "&" "&" (trim_space val)) items /\
    o = MkAFO op (map (fun i => Some (Some (fst i), Some (snd i))) (firsts_by same_item (filter has_filter items) [])).
Proof.
  assert (F2 : forall l items, Forall2 (fun piece i => trim_space piece = fst i ++ ":" ++ snd i /\ attr_name (fst i)) l items <->
                 Forall2 piece_of (map trim_space l) items).
  { induction l as [|x l IH]; intros items; cbn [map]; (split; intros H; inversion H; subst); try (constructor; fail).
    all: constructor; [assumption|now apply IH]. }
  assert (PI : forall op seq r, parse_items seq (MkAFO op []) = Some r <->
     exists items, Forall2 piece_of (map trim_space seq) items /\ r = MkAFO op (map mk_item (firsts_by same_item (filter has_filter items) []))).
  { intros op seq r. exact (parse_items_all op seq [] r (Forall_nil _)). }
  intros raw o. unfold parseAFO. set (t := unquote (condenseWHSP raw)). split.
  - destruct (String.length t <? 5)%nat eqn:L; [discriminate|]. apply Nat.ltb_ge in L. unfold parsePreamble.
    assert (PP : forall p u, has_prefix p u = true -> u = p ++ sdrop (String.length p) u).
    { intros p u H. apply has_prefix_spec in H as [r ->]. now rewrite sdrop_app. }
    destruct (has_prefix "add=" t) eqn:E; [|destruct (has_prefix "delete=" t) eqn:E2; [|discriminate]]; intros H; apply PI in H as (items & F & ->).
    + exists AddOp, (sdrop 4 t), items. split; [exact L|]. split; [now left|]. split; [exact (PP "add=" t E)|]. split; [now apply F2|reflexivity].
    + exists DelOp, (sdrop 7 t), items. split; [exact L|]. split; [now right|]. split; [exact (PP "delete=" t E2)|]. split; [now apply F2|reflexivity].
  - intros (op & val & items & L & O & E & F & ->). apply Nat.ltb_ge in L. rewrite L. apply F2 in F.
    replace (parsePreamble t) with (Some (op, val)) by (rewrite E; destruct O as [->| ->]; reflexivity).
    replace (aop_AFO op []) with (MkAFO op []) by (destruct O as [->| ->]; reflexivity).
    apply PI. now exists items.
Qed.
Lemma firsts_by_distinct l : forall seen, NoDup (seen ++ l)%list -> firsts_by same_item l seen = l.
Proof.
  induction l as [|x l IH]; intros seen D; cbn [firsts_by]; [reflexivity|].
  replace (existsb (fun y => same_item y x) seen) with false.
  - f_equal. apply IH. now rewrite <- app_assoc.
  - symmetry. apply existsb_false. intros y Hy. destruct (same_item y x) eqn:E; [|reflexivity]. apply same_item_eq in E. subst y.
    apply NoDup_remove_2 in D. exfalso. apply D, in_app_iff. now left.
Qed.
(* hence nothing is dropped when every item has a filter and no item is repeated *)
Theorem C34_distinct_items_partial : forall raw o op val items,
  parseAFO raw = Some o -> (op = AddOp \/ op = DelOp) ->
  unquote (condenseWHSP raw) = op_word op ++ "=" ++ val ->
  Forall2 (fun piece i => trim_space piece = fst i ++ ":" ++ snd i /\ ~ In ":"%char (chars (fst i))) (split2 "&" "&" (trim_space val)) items ->
  NoDup items -> (forall i, In i items -> snd i <> "") ->
  afo_op o = op /\ afo_mem o = map (fun i => Some (Some (fst i), Some (snd i))) items.
Proof.
  intros raw o op val items P O E F D NE. apply C34_exact in P as (op' & val' & items' & _ & O' & E' & F' & ->).
  assert (X : op = op' /\ val = val').
  { rewrite E in E'. destruct O as [->| ->], O' as [->| ->]; cbn in E'; try discriminate; injection E' as ->; easy. }
  destruct X as [<- <-]. assert (X : items' = items).
  { clear D NE. revert items' F'. induction F as [|p i l items [A1 A2] F IH]; intros items' F'; inversion F' as [|? j ? items'' [B1 B2] F'']; subst; [reflexivity|].
    f_equal; [|now apply IH]. rewrite A1 in B1. destruct i as [a f], j as [b g]. cbn [fst snd append] in *.
    apply no_byte_chars in A2. assert (B3 : no_byte ":" b = true) by (apply attr_name_no; [exact B2|reflexivity|discriminate]).
    assert (L : idx ":" (a ++ String ":" f) = idx ":" (b ++ String ":" g)) by now rewrite B1. rewrite !idx_app in L by assumption. injection L as L.
    apply app_inj_len in B1 as [-> B1]; [|exact L]. now injection B1 as ->. }
  subst items'. split; [reflexivity|]. cbn [afo_mem]. replace (filter has_filter items) with items.
  - now rewrite firsts_by_distinct.
  - clear -NE. induction items as [|i items IH]; [reflexivity|]. cbn [filter]. unfold has_filter at 1.
    destruct (String.eqb_spec (snd i) "") as [Z|Z]; [destruct (NE i (or_introl eq_refl) Z)|]. cbn [negb]. f_equal. apply IH. intros j Hj. apply NE. now right.
Qed.
Print Assumptions C34_all_items_refuted.
Print Assumptions C34_exact.
Print Assumptions C34_distinct_items_partial.
Example C34_witness :
  parseAFO "'delete=cn:(x=1)  &&sn:(y=2) '" = Some (MkAFO DelOp [built ("cn", "(x=1)"); built ("sn", "(y=2)")]) /\
  parseAFO "add=cn:(x=1) && sn" = None /\ parseAFO "add=cn:(x=1) && 9:(x)" = None.
Proof. repeat split; reflexivity. Qed.

(* ---- C51 ---- *)
(* After any history of Push and Pop calls with any arguments an operation holds
   only filters that have an attribute and a filter text, no two with equal text. *)
Theorem C51_operation : forall op h,
  let r := afo_run (MkAFO op []) h in
  (forall f, In f (afo_mem r) -> exists a t, f = Some (Some a, Some t) /\ a <> "" /\ t <> "") /\
  NoDup (map af_string (afo_mem r)).
Proof.
  intros op h. set (P := fun l : list afilter => (forall f, In f l -> exists a t, f = Some (Some a, Some t) /\ a <> "" /\ t <> "") /\ NoDup (map af_string l)).
  assert (VI : forall f, af_valid f = true -> exists a t, f = Some (Some a, Some t) /\ a <> "" /\ t <> "").
  { intros [[[a|] [t|]]|]; unfold af_valid; cbn; try discriminate; intros V.
    - exists a, t. destruct a, t; cbn in *; try discriminate; repeat split; discriminate.
    - now destruct (String.length a =? 0)%nat.
    - now destruct (String.length t =? 0)%nat. }
  assert (PU : forall l f, P l -> P (push1 afo_policy l f)).
  { intros l f [A B]. unfold push1, afo_policy. destruct (afo_contains l f) eqn:C; [now split|]. destruct (af_valid f) eqn:V; [|now split].
    split.
    - intros g Hg. apply in_app_or in Hg as [Hg|[<-|[]]]; [now apply A|now apply VI].
    - rewrite map_app. cbn [map]. apply NoDup_snoc; [exact B|]. intros Hin. apply in_map_iff in Hin as (g & Eg & Hg).
      unfold afo_contains in C. rewrite existsb_false in C. specialize (C g Hg). rewrite Eg, String.eqb_refl in C. discriminate. }
  assert (ST : forall r c, P (afo_mem r) -> P (afo_mem (afo_step r c))).
  { intros r [x|] H.
    - cbn [afo_step]. unfold afo_push. revert r H. induction x as [|a x IH]; intros r H; [exact H|]. cbn [fold_left]. apply IH.
      destruct a as [s|n|f|]; cbn [afo_push1]; [destruct (parseAttributeFilter s)| | |]; cbn [afo_mem]; auto.
    - cbn [afo_step afo_pop afo_mem]. unfold pop. destruct H as [A B]. destruct (removelast_split (afo_mem r)) as [->|[x E]]; [split; [easy|constructor]|].
      rewrite E in A, B. split; [intros f Hf; apply A, in_app_iff; now left|]. rewrite map_app in B. now apply NoDup_app_l in B. }
  assert (G : forall r, P (afo_mem r) -> P (afo_mem (afo_run r h))).
  { unfold afo_run. induction h as [|c h IH]; intros r H; [exact H|]. cbn [fold_left]. apply IH. now apply ST. }
  apply G. split; [easy|constructor].
Qed.
(* The same for a list of operations: none is empty, no two have equal text. *)
Theorem C51_list : forall h,
  let r := afos_run AFOs0 h in
  (forall o, In o (afos_mem r) -> afo_mem o <> []) /\ NoDup (map afo_string (afos_mem r)).
Proof.
  intros h. set (P := fun l : list afo => (forall o, In o l -> afo_mem o <> []) /\ NoDup (map afo_string l)).
  assert (PU : forall l o, P l -> P (push1 afos_policy l o)).
  { intros l o [A B]. unfold push1, afos_policy. destruct (afos_contains l o) eqn:C; [now split|]. destruct (0 <? List.length (afo_mem o))%nat eqn:V; [|now split].
    split.
    - intros g Hg. apply in_app_or in Hg as [Hg|[<-|[]]]; [now apply A|]. intros E. rewrite E in V. discriminate.
    - rewrite map_app. cbn [map]. apply NoDup_snoc; [exact B|]. intros Hin. apply in_map_iff in Hin as (g & Eg & Hg).
      unfold afos_contains in C. rewrite existsb_false in C. specialize (C g Hg). rewrite Eg, String.eqb_refl in C. discriminate. }
  assert (ST : forall r c, P (afos_mem r) -> P (afos_mem (afos_step r c))).
  { intros r [x| |b] H.
    - cbn [afos_step]. unfold afos_push. revert r H. induction x as [|a x IH]; intros r H; [exact H|]. cbn [fold_left]. apply IH.
      destruct a as [s|o|]; cbn [afos_push1]; [destruct (parseAFO s) as [o|]; [destruct (_ <? _)%nat|]| |]; cbn [afos_mem]; auto.
    - cbn [afos_step afos_pop afos_mem]. unfold pop. destruct H as [A B]. destruct (removelast_split (afos_mem r)) as [->|[x E]]; [split; [easy|constructor]|].
      rewrite E in A, B. split; [intros f Hf; apply A, in_app_iff; now left|]. rewrite map_app in B. now apply NoDup_app_l in B.
    - exact H. }
  assert (G : forall r, P (afos_mem r) -> P (afos_mem (afos_run r h))).
  { unfold afos_run. induction h as [|c h IH]; intros r H; [exact H|]. cbn [fold_left]. apply IH. now apply ST. }
  apply G. split; [easy|constructor].
Qed.
(* a valid filter with a new text is appended; every other is not *)
Theorem C51_push_exact : forall op l a f, attr_name a ->
  afo_mem (afo_push (MkAFO op l) [AOFilter (built (a, f))]) =
  if (String.eqb f "" || existsb (fun g => String.eqb (af_string g) (a ++ ":" ++ f)) l)%bool then l else (l ++ [built (a, f)])%list.
Proof.
  intros op l a f A. unfold afo_push. cbn [fold_left afo_push1 afo_op afo_mem]. unfold push1, afo_policy, afo_contains.
  destruct (String.eqb_spec f "") as [->|N]; cbn [orb].
  - replace (af_valid (built (a, ""))) with false; [now destruct (existsb _ l)|].
    unfold built, AF, atf_set. cbn [fold_left atf_set1 fst snd]. rewrite (AT_name _ A). unfold af_valid. cbn. now destruct (String.length a =? 0)%nat.
  - destruct (C33_filter a f A N) as [-> _]. destruct (existsb _ l); [reflexivity|].
    replace (af_valid (built (a, f))) with true; [reflexivity|]. unfold built, AF, atf_set. cbn [fold_left atf_set1 fst snd]. rewrite (AT_name _ A), filter_some by exact N.
    symmetry. apply (item_string (a, f)); [now apply attr_name_nonempty|exact N].
Qed.
Theorem C51_pop_exact : forall op l x d ops o,
  afo_pop (MkAFO op (l ++ [x])) = MkAFO op l /\ afos_pop (MkAFOs d (ops ++ [o])) = MkAFOs d ops.
Proof. intros. unfold afo_pop, afos_pop, pop. cbn [afo_op afo_mem afos_delim afos_mem]. now rewrite !removelast_last. Qed.
Print Assumptions C51_operation.
Print Assumptions C51_list.
Print Assumptions C51_push_exact.
Example C51_witness :
  map af_string (afo_mem (afo_run (MkAFO AddOp [])
    [AOPush [AOFilter (built ("cn", "(x=1)")); AOStr "sn:(y=2)"; AOStr "cn:(x=1)"; AOFilter None; AOStr "c:"]; AOPush [AOStr "l:(z=3)"]; AOPop]))
  = ["cn:(x=1)"; "sn:(y=2)"] /\
  map afo_string (afos_mem (afos_run AFOs0
    [ASPush [ASStr "add=cn:(x=1)"; ASStr "delete=cn:(x=1)"; ASStr "add=cn:(x=1)"; ASStr "add=cn:"]; ASPush [ASStr "add=sn:(x=2)"]; ASPop; ASDelim true]))
  = ["add=cn:(x=1)"; "delete=cn:(x=1)"].
Proof. split; reflexivity. Qed.

(* ---- C53 ---- *)
(* False: the list read from semicolon-separated text prints with commas. *)
Theorem C53_semicolon_refuted :
  ~ (forall raw r, parseAFOs raw true = Some r -> (2 <= List.length (afos_mem r))%nat -> afos_delim r = ";"%char).
Proof.
  intros H. specialize (H "add=cn:(x=1);delete=sn:(y=2)" _ eq_refl). vm_compute in H. specialize (H ltac:(repeat constructor)). discriminate.
Qed.
Lemma parse_ops_delim vals : forall r s, parse_ops vals r = Some s -> afos_delim s = afos_delim r.
Proof.
  induction vals as [|v vals IH]; intros r s; cbn [parse_ops]; [intros H; now injection H as ->|].
  destruct (hasAFOPrefix _); [|discriminate]. destruct (parseAFO _); [|discriminate]. intros H. apply IH in H. exact H.
Qed.
Theorem C53_exact : forall raw semi r, parseAFOs raw semi = Some r -> afos_delim r = ","%char.
Proof.
  intros raw semi r. unfold parseAFOs. destruct (op_count raw =? 0)%nat; [discriminate|]. destruct (negb _); [discriminate|].
  intros H. apply parse_ops_delim in H. exact H.
Qed.
Print Assumptions C53_semicolon_refuted.
Print Assumptions C53_exact.
Example C53_witness :
  option_map afos_string (parseAFOs "add=cn:(x=1);delete=sn:(y=2)" true) = Some "add=cn:(x=1),delete=sn:(y=2)".
Proof. reflexivity. Qed.

(* ---- C54 ---- *)
(* False: a rule with one operation on an attribute with an option is refused,
   because the semicolon of the option is taken for a delimiter, although the
   operation reader accepts the same text. *)
Theorem C54_options_refuted :
  ~ (forall o, op_ok o -> exists r, assertTargetAttrFilters [afo_string (built_op o)] = Some r).
Proof.
  intros H. destruct (H (AddOp, [("cn;lang-en", "(x=1)")])) as [r E].
  - split; [now left|]. split; [discriminate|]. split.
    + intros i [<-|[]]. split; [apply ascii_name_check; reflexivity|].
      apply (witness_filter _ "(x=1)" []); try reflexivity; [|constructor|exists "(x=1"; reflexivity].
      apply word_check; [discriminate|reflexivity].
    + constructor; [easy|constructor].
  - vm_compute in E. discriminate.
Qed.
(* Every text without a comma whose semicolons are more or fewer than one less than
   its operation words is refused. *)
Theorem C54_exact : forall v, let t := unquote (condenseWHSP v) in
  ~ In ","%char (chars t) -> In ";"%char (chars t) ->
  op_count t <> List.length (split1 ";" t) -> assertTargetAttrFilters [v] = None.
Proof.
  intros v t A B C. unfold assertTargetAttrFilters. fold t. destruct (String.length t <? 3)%nat; [reflexivity|].
  apply no_byte_chars in A. rewrite (proj2 (idx_none _ _) A). destruct (idx ";" t) eqn:E.
  - unfold parseAFOs. destruct (op_count t =? 0)%nat; [reflexivity|]. destruct (Nat.eqb_spec (op_count t) (List.length (split1 ";" t))); [contradiction|reflexivity].
  - apply idx_none, no_byte_chars in E. contradiction.
Qed.
Print Assumptions C54_options_refuted.
Print Assumptions C54_exact.
Example C54_witness :
  assertTargetAttrFilters ["add=cn;lang-en:(x=1)"] = None /\
  parseAFO "add=cn;lang-en:(x=1)" = Some (built_op (AddOp, [("cn;lang-en", "(x=1)")])).
Proof. split; reflexivity. Qed.
