(* Lemmas for the attribute filter properties. *)
From Coq Require Import String Ascii List PeanoNat NArith Bool Lia.
From Verif Require Import GoStr GoStrFacts MMisc MKw MAttr MLists MFilter SMisc SAttr SLists SFilter PMisc PAttr PNet PLists.
Import ListNotations.
Open Scope string_scope.

(* ---- neat text ---- *)
Lemma word_bytes w : word w -> w <> "" /\ all_bytes (fun c => negb (blank c)) w = true /\ is_ascii w = true /\
  (forall c, first_byte w = Some c -> white c = false) /\ (forall c, last_byte w = Some c -> white c = false).
Proof.
  intros [N H]. split; [easy|].
  assert (A : forall f, (forall c, ascii_byte c = true -> white c = false -> f c = true) -> all_bytes f w = true).
  { intros f Hf. clear N. induction w as [|c w IH]; [easy|]. cbn [all_bytes]. rewrite Hf; try apply H; try now left. apply IH. intros d Hd. apply H. now right. }
  split; [|split; [|split]].
  - apply A. intros c _ W. now rewrite (nonwhite_nonblank c W).
  - apply A. auto.
  - intros c E. destruct w; [easy|]. injection E as <-. apply H. now left.
  - intros c E. apply H. clear -E. induction w as [|d w IH]; [easy|]. destruct w as [|e w].
    + injection E as <-. now left.
    + right. now apply IH.
Qed.
Lemma word_app a b : word a -> word b -> word (a ++ b).
Proof.
  intros [A1 A2] [B1 B2]. split; [now destruct a|]. intros c H. rewrite chars_app in H. apply in_app_iff in H as [H|H]; auto.
Qed.
Lemma join_snoc_first w ws : w <> "" -> first_byte (join " " (w :: ws)) = first_byte w.
Proof. apply join_first. Qed.
Lemma join_words_last ws : forall w, Forall word (w :: ws) -> exists x, word x /\ last_byte (join " " (w :: ws)) = last_byte x.
Proof.
  induction ws as [|y ws IH]; intros w F.
  - exists w. split; [now inversion F|reflexivity].
  - inversion F as [|? ? Hw F']; subst. destruct (IH y F') as (x & Hx & E). exists x. split; [easy|].
    rewrite join_cons. cbn [append]. change (w ++ String " " (join " " (y :: ws))) with (w ++ String " " (join " " (y :: ws))).
    rewrite last_byte_app2. rewrite <- E. inversion F' as [|? ? Hy _]; subst.
    destruct (join " " (y :: ws)) eqn:J; [|reflexivity].
    destruct y; [now destruct Hy|]. destruct ws; discriminate.
Qed.
Lemma neat_facts s : neat s -> is_ascii s = true /\ tidy s /\ condenseWHSP s = s /\ trim_space s = s /\ s <> "".
Proof.
  intros (w & ws & -> & Hw & Hws). assert (F : Forall word (w :: ws)) by now constructor.
  assert (A : is_ascii (join " " (w :: ws)) = true).
  { clear Hw Hws. unfold is_ascii. induction F as [|x l Hx Fl IH]; [easy|]. destruct l as [|y l].
    - now apply word_bytes in Hx.
    - rewrite join_cons, !all_bytes_app, IH. apply word_bytes in Hx as (_ & _ & Hx & _). unfold is_ascii in Hx. now rewrite Hx. }
  assert (T : tidy (join " " (w :: ws))).
  { split; intros c Hc.
    - rewrite join_first in Hc by apply Hw. destruct (word_bytes w Hw) as (_ & _ & _ & X & _). now apply X.
    - destruct (join_words_last ws w F) as (x & Hx & E). rewrite E in Hc. destruct (word_bytes x Hx) as (_ & _ & _ & _ & X). now apply X. }
  assert (Tr := trim_id _ A T).
  repeat split; try apply T; try assumption.
  - rewrite condense_words by easy. rewrite Tr. f_equal. apply words_join.
    eapply Forall_impl; [|exact F]. intros x Hx. apply word_bytes in Hx. tauto.
  - destruct w; [now destruct Hw|]. destruct ws; discriminate.
Qed.
Lemma neat_prefix a s : word a -> neat s -> neat (a ++ s).
Proof.
  intros Ha (w & ws & -> & Hw & Hws). exists (a ++ w), ws. split; [|split; [now apply word_app|easy]].
  destruct ws; [reflexivity|]. rewrite !join_cons. now rewrite app_assoc'.
Qed.
Lemma neat_join s t : neat s -> neat t -> neat (s ++ " " ++ t).
Proof.
  intros (w & ws & -> & Hw & Hws) (x & xs & -> & Hx & Hxs). exists w, (ws ++ x :: xs)%list. split; [|split; [easy|]].
  - clear. revert w. induction ws as [|y ws IH]; intros w.
    + cbn [app]. now rewrite join_cons.
    + cbn [app]. rewrite !join_cons, <- IH, !app_assoc'. reflexivity.
  - apply Forall_app. split; [easy|now constructor].
Qed.
Lemma word_amp : word "&&".
Proof. split; [easy|]. intros c H. cbn in H. destruct H as [<-|[<-|[]]]; split; reflexivity. Qed.
Lemma neat_word w : word w -> neat w.
Proof. intros H. exists w, []. split; [reflexivity|]. split; [exact H|constructor]. Qed.
Lemma neat_items l : l <> [] -> Forall neat l -> neat (join " && " l).
Proof.
  intros N F. induction F as [|x l Hx F IH]; [easy|]. destruct l as [|y l]; [exact Hx|].
  rewrite join_cons. change (" && " ++ join " && " (y :: l)) with (" " ++ ("&&" ++ (" " ++ join " && " (y :: l)))).
  apply neat_join; [easy|]. apply neat_join; [apply neat_word, word_amp|]. now apply IH.
Qed.

(* ---- occurrences ---- *)
Lemma scontains_occurs p s : scontains p s = true <-> occurs p s.
Proof.
  induction s as [|c s IH]; cbn [scontains].
  - rewrite orb_false_r. rewrite has_prefix_spec. split.
    + intros [t H]. now exists "", t.
    + intros (a & b & H). exists b. destruct a; [exact H|discriminate].
  - rewrite orb_true_iff, has_prefix_spec, IH. split.
    + intros [[t H]|(a & b & ->)]; [now exists "", t|now exists (String c a), b].
    + intros (a & b & H). destruct a as [|d a]; [left; now exists b|]. injection H as <- ->. right. now exists a, b.
Qed.
Lemma occurs_cons p c s : occurs p s -> occurs p (String c s).
Proof. intros (a & b & ->). now exists (String c a), b. Qed.
Lemma occurs_prefix p t : occurs p (p ++ t).
Proof. now exists "", t. Qed.

(* split at && *)
Lemma split2_none s : ~ occurs "&&" s -> split2 "&" "&" s = [s].
Proof.
  induction s as [|c s IH]; intros H; [reflexivity|]. cbn [split2]. destruct s as [|d s]; [reflexivity|].
  destruct (Ascii.eqb_spec "&" c) as [<-|N]; destruct (Ascii.eqb_spec "&" d) as [<-|N2]; cbn [andb].
  - exfalso. apply H. now exists "", s.
  - rewrite IH; [reflexivity|]. intros O. apply H. now apply occurs_cons.
  - rewrite IH; [reflexivity|]. intros O. apply H. now apply occurs_cons.
  - rewrite IH; [reflexivity|]. intros O. apply H. now apply occurs_cons.
Qed.
Lemma split2_app a b : ~ occurs "&&" a -> (forall c, last_byte a = Some c -> c <> "&"%char) ->
  split2 "&" "&" (a ++ "&&" ++ b) = a :: split2 "&" "&" b.
Proof.
  induction a as [|c a IH]; intros H L.
  - cbn [append split2]. reflexivity.
  - destruct a as [|d a].
    + cbn [append split2]. destruct (Ascii.eqb_spec "&" c) as [<-|N]; [exfalso; now apply (L "&"%char)|]. cbn [andb]. reflexivity.
    + change (String c (String d a) ++ "&&" ++ b) with (String c (String d a ++ "&&" ++ b)).
      cbn [split2]. change (String d a ++ "&&" ++ b) with (String d (a ++ "&&" ++ b)) at 1. cbv iota.
      assert (C : (Ascii.eqb "&" c && Ascii.eqb "&" d)%bool = false).
      { destruct (Ascii.eqb_spec "&" c) as [<-|]; [|reflexivity]. destruct (Ascii.eqb_spec "&" d) as [<-|]; [|reflexivity].
        exfalso. apply H. now exists "", a. }
      rewrite C. rewrite IH; [reflexivity| |].
      * intros O. apply H. now apply occurs_cons.
      * exact L.
Qed.

(* ---- counting ---- *)
Lemma prefix_sep c p a b : no_byte c p = true -> has_prefix p (a ++ String c b) = has_prefix p a.
Proof.
  revert a. induction p as [|d p IH]; intros a H; [now destruct a|]. rewrite no_byte_cons in H. apply andb_true_iff in H as [H1 H2].
  destruct a as [|e a]; cbn [append has_prefix].
  - apply negb_true_iff in H1. rewrite Ascii.eqb_sym in H1. now rewrite H1.
  - now rewrite IH.
Qed.
Lemma prefix_len p s : has_prefix p s = true -> (String.length p <= String.length s)%nat.
Proof. intros H. apply has_prefix_spec in H as [t ->]. rewrite length_app. lia. Qed.
Lemma count_sep c p a b : p <> "" -> no_byte c p = true ->
  forall skip, (skip <= String.length a)%nat ->
  count_aux p skip (a ++ String c b) = (count_aux p skip a + count_aux p 0 b)%nat.
Proof.
  intros P N. induction a as [|d a IH]; intros skip L.
  - cbn [String.length] in L. assert (skip = 0)%nat as -> by lia. cbn [append count_aux].
    rewrite <- (app_nil_r' p) in N. replace (has_prefix p (String c b)) with false; [reflexivity|].
    symmetry. change (String c b) with ("" ++ String c b). rewrite prefix_sep by now rewrite app_nil_r' in N. now destruct p.
  - cbn [append count_aux]. destruct skip as [|k]; [|apply IH; cbn [String.length] in L; lia].
    change (String d (a ++ String c b)) with (String d a ++ String c b). rewrite prefix_sep by exact N.
    destruct (has_prefix p (String d a)) eqn:E; [|apply IH; lia].
    apply prefix_len in E. cbn [String.length] in E. rewrite IH by lia. lia.
Qed.
Lemma count_split c p a b : p <> "" -> no_byte c p = true -> scount (a ++ String c b) p = (scount a p + scount b p)%nat.
Proof. intros P N. unfold scount. apply count_sep; [easy|easy|lia]. Qed.
Lemma count_none p s : ~ occurs p s -> scount s p = 0%nat.
Proof.
  unfold scount. induction s as [|c s IH]; intros H; [reflexivity|]. cbn [count_aux].
  destruct (has_prefix p (String c s)) eqn:E.
  - apply has_prefix_spec in E as [t E]. exfalso. apply H. now exists "", t.
  - apply IH. intros O. apply H. now apply occurs_cons.
Qed.
Definition opw (p : string) : Prop := p = "add=" \/ p = "delete=".
Lemma opw_facts p : opw p -> p <> "" /\ no_byte ":" p = true /\ no_byte " " p = true /\ no_byte "," p = true /\ no_byte ";" p = true.
Proof. intros [->| ->]; repeat split; discriminate. Qed.
Lemma no_eq_occurs p s : opw p -> no_byte "=" s = true -> ~ occurs p s.
Proof.
  intros P H (a & b & E). assert (E' : exists a' b', s = a' ++ String "=" b').
  { destruct P as [->| ->]; [exists (a ++ "add"), b|exists (a ++ "delete"), b]; rewrite E; now rewrite app_assoc'. }
  destruct E' as (a' & b' & ->). rewrite no_byte_app, no_byte_cons in H. cbn in H. now rewrite andb_false_r in H.
Qed.
Lemma count_item p i : opw p -> no_byte "=" (fst i) = true -> ~ occurs p (snd i) -> scount (item_text i) p = 0%nat.
Proof.
  intros P A F. unfold item_text. destruct (opw_facts p P) as (P1 & P2 & _). cbn [append].
  rewrite count_split by easy. rewrite (count_none p (fst i)) by now apply no_eq_occurs. now rewrite count_none.
Qed.
Lemma count_items p l : opw p -> (forall i, In i l -> no_byte "=" (fst i) = true /\ ~ occurs p (snd i)) ->
  scount (join " && " (map item_text l)) p = 0%nat.
Proof.
  intros P H. destruct (opw_facts p P) as (P1 & P2 & P3 & _). induction l as [|i l IH]; [now destruct P as [->| ->]|].
  destruct (H i (or_introl eq_refl)) as [A F]. specialize (IH (fun j Hj => H j (or_intror Hj))).
  destruct l as [|j l]; [now apply count_item|]. cbn [map]. rewrite join_cons. cbn [map] in IH.
  change (" && " ++ join " && " (item_text j :: map item_text l)) with (String " " ("&&" ++ String " " (join " && " (item_text j :: map item_text l)))).
  rewrite !count_split by easy. rewrite count_item by easy. rewrite IH. now destruct P as [->| ->].
Qed.
Lemma count_op_text op l : In op [AddOp; DelOp] -> l <> [] ->
  (forall i, In i l -> no_byte "=" (fst i) = true /\ ~ occurs "add=" (snd i) /\ ~ occurs "delete=" (snd i)) ->
  op_count (aop_string op ++ "=" ++ join " && " (map item_text l)) = 1%nat.
Proof.
  intros O N H. destruct l as [|i l]; [easy|].
  assert (S : exists tail, join " && " (map item_text (i :: l)) = fst i ++ String ":" tail).
  { cbn [map]. destruct (map item_text l); [exists (snd i); reflexivity|]. rewrite join_cons. unfold item_text at 1.
    exists (snd i ++ " && " ++ join " && " (s :: l0)). rewrite !app_assoc'. reflexivity. }
  destruct S as [tail S]. destruct (H i (or_introl eq_refl)) as (A & _ & _).
  assert (C : forall p, opw p -> scount tail p = 0%nat).
  { intros p P. assert (Z := count_items p (i :: l) P). rewrite S in Z. destruct (opw_facts p P) as (P1 & P2 & _).
    rewrite count_split in Z by easy. assert (Z' := Z ltac:(intros j Hj; destruct (H j Hj) as (? & ? & ?); destruct P as [->| ->]; auto)). lia. }
  assert (Z : forall p, opw p -> count_aux p 0 (fst i) = 0%nat) by (intros p P; apply count_none; now apply no_eq_occurs).
  rewrite S. replace (aop_string op ++ "=" ++ fst i ++ String ":" tail) with ((aop_string op ++ "=" ++ fst i) ++ String ":" tail) by now rewrite !app_assoc'.
  unfold op_count. rewrite !count_split by easy. rewrite (C "add=") by now left. rewrite (C "delete=") by now right.
  assert (Z1 := Z "add=" (or_introl eq_refl)). assert (Z2 := Z "delete=" (or_intror eq_refl)).
  destruct O as [<-|[<-|[]]]; unfold aop_string, scount; cbn [N.eqb Pos.eqb AddOp DelOp]; cbn; rewrite Z1, Z2; reflexivity.
Qed.
Lemma count_ops c ts : (forall p, opw p -> no_byte c p = true) -> ts <> [] -> (forall t, In t ts -> op_count t = 1%nat) ->
  op_count (join (String c "") ts) = List.length ts.
Proof.
  intros C N H. induction ts as [|t ts IH]; [easy|]. destruct ts as [|u ts]; [now apply H; left|].
  rewrite join_cons. change (String c "" ++ join (String c "") (u :: ts)) with (String c (join (String c "") (u :: ts))).
  assert (IH' := IH ltac:(discriminate) (fun x Hx => H x (or_intror Hx))). assert (Ht := H t (or_introl eq_refl)).
  unfold op_count in *. rewrite !count_split by (try easy; apply C; unfold opw; auto). cbn [List.length] in *. lia.
Qed.

(* ---- one attribute filter ---- *)
Definition mk_item (i : string * string) : afilter := Some (Some (fst i), Some (snd i)).
Lemma filter_some f : f <> "" -> Filter [f] = Some f.
Proof. intros H. unfold Filter, sf_set. now rewrite (proj2 (len0f f) H). Qed.
Lemma parse_filter_item a f : attr_name a -> parseAttributeFilter (a ++ ":" ++ f) = Some (Some (Some a, Filter [f])).
Proof.
  intros A. unfold parseAttributeFilter. cbn [append]. rewrite (idx_app ":" a f) by (apply attr_name_no; [exact A|reflexivity|discriminate]).
  rewrite stake_app, (AT_name a A). cbn [at_isZero]. rewrite (proj2 (len0f a)) by now apply attr_name_nonempty.
  replace (String.length a + 1)%nat with (String.length (a ++ ":")) by (rewrite length_app; reflexivity).
  replace (a ++ String ":" f) with ((a ++ ":") ++ f) by now rewrite app_assoc'. rewrite sdrop_app.
  unfold af_set. cbn [af_isZero]. unfold atf_set. cbn [fold_left atf_set1 fst snd]. reflexivity.
Qed.
Lemma item_string i : fst i <> "" -> snd i <> "" -> af_string (mk_item i) = item_text i /\ af_valid (mk_item i) = true.
Proof.
  intros A F. unfold mk_item, af_string, af_valid, af_isZero, sf_isZero, at_isZero. cbn.
  rewrite (proj2 (len0f (fst i)) A), (proj2 (len0f (snd i)) F). split; reflexivity.
Qed.
Lemma item_text_inj i j : attr_name (fst i) -> attr_name (fst j) -> item_text i = item_text j -> i = j.
Proof.
  destruct i as [a f], j as [b g]. unfold item_text. cbn [fst snd append]. intros A B E.
  assert (L : idx ":" (a ++ String ":" f) = idx ":" (b ++ String ":" g)) by now rewrite E.
  rewrite !idx_app in L by (apply attr_name_no; [assumption|reflexivity|discriminate]). injection L as L.
  apply app_inj_len in E as [-> E]; [|exact L]. now injection E as ->.
Qed.

(* ---- operations ---- *)
Definition ok_item (i : string * string) : Prop := ascii_name (fst i) /\ item_filter (snd i).
Lemma name_word a : ascii_name a -> word (a ++ ":").
Proof.
  intros [A B]. split.
  - intros E. apply (f_equal String.length) in E. rewrite length_app in E. cbn in E. lia.
  - intros c H. rewrite chars_app in H. apply in_app_iff in H as [H|H].
    + split; [now apply B|]. destruct (white c) eqn:W; [exfalso|reflexivity].
      assert (X : no_byte c a = true) by (clear -W B H A; specialize (B c H);
        apply attr_name_no; [exact A| |];
        destruct c as [[] [] [] [] [] [] [] []]; vm_compute in W; try discriminate; reflexivity).
      apply no_byte_chars in X. contradiction.
    + destruct H as [<-|[]]. split; reflexivity.
Qed.
Lemma item_neat i : ok_item i -> neat (item_text i).
Proof.
  intros [A (N & _)]. unfold item_text. replace (fst i ++ ":" ++ snd i) with ((fst i ++ ":") ++ snd i) by now rewrite app_assoc'.
  apply neat_prefix; [now apply name_word|exact N].
Qed.
Lemma item_no_amp i : ok_item i -> ~ occurs "&&" (item_text i).
Proof.
  intros [[A _] (_ & F & _)] (x & y & E). unfold item_text in E. cbn [append] in E.
  assert (Na : no_byte "&" (fst i) = true) by (apply attr_name_no; [exact A|reflexivity|discriminate]).
  revert x E Na. generalize (fst i). induction s as [|c s IH]; intros x E Na; cbn [append] in E.
  - destruct x as [|d x]; [discriminate|]. injection E as <- E. apply F. now exists x, y.
  - rewrite no_byte_cons in Na. apply andb_true_iff in Na as [N1 N2]. destruct x as [|d x].
    + injection E as E0 E. subst c. discriminate.
    + injection E as <- E. now apply (IH x).
Qed.
Lemma trim_sp s : neat s -> trim_space (" " ++ s) = s /\ trim_space (s ++ " ") = s /\ trim_space (" " ++ s ++ " ") = s.
Proof.
  intros H. destruct (neat_facts s H) as (A & [T1 T2] & _ & _ & N).
  assert (D : forall t, dropw (" " ++ t) = dropw t) by reflexivity.
  assert (E : forall t, t <> "" -> srev (dropw (srev (t ++ " "))) = srev (dropw (srev t))) by (intros t _; now rewrite srev_append).
  assert (B : srev (dropw (srev s)) = s). { rewrite dropw_id by now rewrite <- last_first. apply srev_involutive. }
  assert (A1 : is_ascii (s ++ " ") = true) by (unfold is_ascii in *; now rewrite all_bytes_app, A).
  assert (F : first_byte (s ++ " ") = first_byte s) by now destruct s.
  repeat split; rewrite trim_ascii by (cbn; assumption).
  - rewrite D, (dropw_id s T1). exact B.
  - rewrite (dropw_id (s ++ " ")) by now rewrite F. rewrite E by exact N. exact B.
  - rewrite D, (dropw_id (s ++ " ")) by now rewrite F. rewrite E by exact N. exact B.
Qed.
(* the pieces of the text, and what trimming makes of them *)
Lemma split_items l : l <> [] -> Forall ok_item l ->
  map trim_space (split2 "&" "&" (join " && " (map item_text l))) = map item_text l.
Proof.
  intros NE F.
  assert (G : forall l, l <> [] -> Forall ok_item l -> forall pre, (pre = "" \/ pre = " ") ->
     map trim_space (split2 "&" "&" (pre ++ join " && " (map item_text l))) = map item_text l).
  { clear. induction l as [|i l IH]; intros NE F pre Hp; [easy|]. inversion F as [|? ? Hi Fl]; subst.
    assert (Ne := item_neat i Hi). assert (NA := item_no_amp i Hi).
    assert (NA2 : ~ occurs "&&" (pre ++ item_text i)).
    { destruct Hp as [->| ->]; [exact NA|]. intros (x & y & E). destruct x as [|d x]; [discriminate|]. injection E as _ E. apply NA. now exists x, y. }
    destruct l as [|j l].
    - cbn [map join]. rewrite split2_none by exact NA2. cbn [map]. f_equal. destruct Hp as [->| ->]; [|now apply trim_sp].
      now apply neat_facts.
    - cbn [map]. rewrite join_cons.
      replace (pre ++ item_text i ++ " && " ++ join " && " (item_text j :: map item_text l))
        with ((pre ++ item_text i ++ " ") ++ "&&" ++ (" " ++ join " && " (map item_text (j :: l)))) by (rewrite !app_assoc'; reflexivity).
      rewrite split2_app.
      + cbn [map]. f_equal.
        * destruct Hp as [->| ->]; now apply trim_sp.
        * apply (IH ltac:(discriminate) Fl " "). now right.
      + intros (x & y & E). apply NA2. 
        assert (E' : (pre ++ item_text i) ++ " " = x ++ "&&" ++ y) by (rewrite app_assoc'; exact E). clear -E'.
        revert x E'. generalize (pre ++ item_text i). induction s as [|c s IHs]; intros x E.
        * destruct x as [|d x]; [discriminate|]. destruct x; discriminate.
        * destruct x as [|d x].
          { cbn [append] in E. injection E as -> E. destruct s as [|c s]; [discriminate|]. injection E as -> E. now exists "", s. }
          { injection E as <- E. destruct (IHs x E) as (p & q & ->). now exists (String c p), q. }
      + intros c Hc. replace (pre ++ item_text i ++ " ") with ((pre ++ item_text i) ++ " ") in Hc by apply app_assoc'.
        rewrite last_byte_app in Hc. injection Hc as <-. discriminate. }
  now apply (G l NE F "" (or_introl eq_refl)).
Qed.
Definition distinct_items (l : list (string * string)) : Prop := NoDup l.
Lemma parse_items_spec op l : Forall ok_item l -> forall seen,
  Forall ok_item seen -> NoDup (seen ++ l)%list ->
  forall seq, map trim_space seq = map item_text l ->
  parse_items seq (MkAFO op (map mk_item seen)) = Some (MkAFO op (map mk_item (seen ++ l)%list)).
Proof.
  intros F. induction F as [|i l Hi F IH]; intros seen Fs D seq E.
  - destruct seq; [|discriminate]. cbn [parse_items]. now rewrite app_nil_r.
  - destruct seq as [|x seq]; [discriminate|]. cbn [map] in E. injection E as E0 E. cbn [parse_items]. rewrite E0.
    destruct Hi as [[A A'] HF]. assert (NF : snd i <> "") by (destruct HF as (N & _); now apply neat_facts in N).
    unfold item_text. rewrite (parse_filter_item (fst i) (snd i) A), filter_some by exact NF.
    fold (mk_item i). unfold afo_push. cbn [fold_left afo_push1 afo_op afo_mem]. unfold push1, afo_policy.
    assert (NA := attr_name_nonempty _ A). destruct (item_string i NA NF) as [S V]. cbv beta.
    assert (C : afo_contains (map mk_item seen) (mk_item i) = false).
    { unfold afo_contains. apply existsb_false. intros y Hy. apply in_map_iff in Hy as (j & <- & Hj).
      rewrite Forall_forall in Fs. destruct (Fs j Hj) as [[Aj _] (Nj & _)].
      destruct (item_string j) as [Sj _]; [now apply attr_name_nonempty|now apply neat_facts in Nj|].
      rewrite S, Sj. apply String.eqb_neq. intros X. apply item_text_inj in X; [|assumption|assumption]. subst j.
      apply NoDup_remove_2 in D. apply D, in_app_iff. now left. }
    change (Some (Some (fst i), Some (snd i))) with (mk_item i). rewrite C, V. change (map mk_item seen ++ [mk_item i])%list with (map mk_item seen ++ map mk_item [i])%list. rewrite <- map_app.
    replace (seen ++ i :: l)%list with ((seen ++ [i]) ++ l)%list in * by now rewrite <- app_assoc.
    apply IH; [|exact D|exact E]. apply Forall_app. split; [exact Fs|]. constructor; [|constructor]. now split; [split|].
Qed.
Definition op_text (op : N) (l : list (string * string)) : string := aop_string op ++ "=" ++ join " && " (map item_text l).
Lemma op_text_neat op l : In op [AddOp; DelOp] -> l <> [] -> Forall ok_item l -> neat (op_text op l).
Proof.
  intros O NE F. unfold op_text. replace (aop_string op ++ "=" ++ join " && " (map item_text l)) with ((aop_string op ++ "=") ++ join " && " (map item_text l)) by now rewrite app_assoc'.
  apply neat_prefix.
  - destruct O as [<-|[<-|[]]]; (split; [discriminate|]); intros c H; cbn in H;
    repeat destruct H as [<-|H]; try contradiction; split; reflexivity.
  - apply neat_items; [destruct l; [easy|discriminate]|]. rewrite Forall_map. eapply Forall_impl; [|exact F]. intros i. apply item_neat.
Qed.
Lemma is_quote_mark c : is_quote c = true -> quote_mark c.
Proof. unfold is_quote, quote_mark. rewrite !orb_true_iff, !Ascii.eqb_eq. tauto. Qed.
Lemma last_byte_ends s c : last_byte s = Some c -> ends_with c s.
Proof.
  induction s as [|d s IH]; [easy|]. destruct s as [|e s]; intros H.
  - injection H as <-. now exists "".
  - destruct (IH H) as [a E]. exists (String d a). cbn [append]. now rewrite <- E.
Qed.
Lemma op_text_last op l i : last_byte (op_text op (l ++ [i])%list) = last_byte (snd i) \/ snd i = "".
Proof.
  destruct (snd i) as [|c f] eqn:E; [now right|left]. unfold op_text.
  assert (X : exists p, join " && " (map item_text (l ++ [i])%list) = p ++ String c f).
  { induction l as [|j l [p IH]].
    - cbn [app map join]. unfold item_text. rewrite E. now exists (fst i ++ ":"); rewrite app_assoc'.
    - cbn [app map]. destruct (map item_text (l ++ [i])%list) as [|x xs] eqn:M; [destruct l; discriminate|].
      rewrite join_cons, IH. exists (item_text j ++ " && " ++ p). now rewrite !app_assoc'. }
  destruct X as [p X]. rewrite X. replace (aop_string op ++ "=" ++ p ++ String c f) with ((aop_string op ++ "=" ++ p) ++ String c f) by now rewrite !app_assoc'.
  apply last_byte_app2.
Qed.
Lemma op_text_plain op l : In op [AddOp; DelOp] -> l <> [] -> Forall ok_item l ->
  unquote (condenseWHSP (op_text op l)) = op_text op l.
Proof.
  intros O NE F. destruct (neat_facts _ (op_text_neat op l O NE F)) as (_ & _ & -> & _ & _). apply unquote_plain.
  - intros c H. destruct O as [<-|[<-|[]]]; injection H as <-; reflexivity.
  - intros c H. destruct (exists_last NE) as (l' & i & ->). apply Forall_app in F as [_ F]. inversion F as [|? ? [_ (N & _ & Q)] _]; subst.
    destruct (op_text_last op l' i) as [L|L]; [|exfalso; apply neat_facts in N; tauto].
    rewrite L in H. destruct (is_quote c) eqn:IQ; [exfalso|reflexivity]. apply (Q c); [now apply is_quote_mark|now apply last_byte_ends].
Qed.
Lemma parse_op_text op l : In op [AddOp; DelOp] -> l <> [] -> Forall ok_item l -> NoDup l ->
  parseAFO (op_text op l) = Some (MkAFO op (map mk_item l)).
Proof.
  intros O NE F D. unfold parseAFO. rewrite op_text_plain by assumption.
  assert (N := neat_items (map item_text l) ltac:(destruct l; [easy|discriminate]) ltac:(rewrite Forall_map; eapply Forall_impl; [|exact F]; intros i; apply item_neat)).
  destruct (neat_facts _ N) as (_ & _ & _ & T & Nn).
  assert (P : parsePreamble (op_text op l) = Some (op, join " && " (map item_text l))).
  { destruct O as [<-|[<-|[]]]; reflexivity. }
  assert (L : (String.length (op_text op l) <? 5)%nat = false).
  { apply Nat.ltb_ge. unfold op_text. rewrite !length_app. destruct (join " && " (map item_text l)); [easy|]. cbn [String.length].
    destruct O as [<-|[<-|[]]]; cbn; lia. }
  rewrite L, P, T. unfold aop_AFO, afo_push. cbn [fold_left].
  replace (aop_label op) with op by (destruct O as [<-|[<-|[]]]; reflexivity).
  change (@nil afilter) with (map mk_item []). rewrite (parse_items_spec op l F []); try easy. now apply split_items.
Qed.
Lemma op_string op l : Forall ok_item l -> afo_string (MkAFO op (map mk_item l)) = op_text op l.
Proof.
  intros F. unfold afo_string, op_text. cbn [afo_op afo_mem]. do 3 f_equal. rewrite map_map. apply map_ext_in. intros i Hi.
  rewrite Forall_forall in F. destruct (F i Hi) as [[A _] (N & _)]. apply item_string; [now apply attr_name_nonempty|now apply neat_facts in N].
Qed.

(* ---- every accepted text ---- *)
Lemma same_item_eq i j : same_item i j = true <-> i = j.
Proof.
  destruct i, j. unfold same_item. cbn. rewrite andb_true_iff, !String.eqb_eq. split; [intros [-> ->]; easy|intros H; now injection H].
Qed.
Definition piece_of (p : string) (i : string * string) : Prop := p = item_text i /\ attr_name (fst i).
Lemma at_nonzero_name s : at_isZero (AT s) = false -> attr_name s.
Proof. destruct (AT_iff s) as [[E A]|[E A]]; rewrite E; [easy|discriminate]. Qed.
Lemma parse_filter_inv raw f : parseAttributeFilter raw = Some f ->
  exists i, piece_of raw i /\ f = Some (Some (fst i), Filter [snd i]).
Proof.
  intros H. assert (H' := H). unfold parseAttributeFilter in H. destruct (idx ":" raw) as [n|] eqn:E; [|discriminate].
  destruct (at_isZero (AT (stake n raw))) eqn:Z; [discriminate|].
  assert (A : attr_name (stake n raw)) by now apply at_nonzero_name. clear H.
  destruct (idx_split ":" raw n E) as (a & b & -> & _ & L). subst n. rewrite stake_app in A.
  exists (a, b). change (a ++ String ":" b) with (a ++ ":" ++ b) in *. rewrite (parse_filter_item a b A) in H'. injection H' as <-.
  split; [split; [reflexivity|exact A]|reflexivity].
Qed.
Lemma parse_filter_piece p i : piece_of p i -> parseAttributeFilter p = Some (Some (Some (fst i), Filter [snd i])).
Proof. intros [-> A]. now apply parse_filter_item. Qed.
Lemma filter_empty : Filter [""] = Some "".
Proof. reflexivity. Qed.
Lemma afo_push_item op seen i : Forall (fun i => attr_name (fst i) /\ snd i <> "") seen -> attr_name (fst i) ->
  afo_push (MkAFO op (map mk_item seen)) [AOFilter (Some (Some (fst i), Filter [snd i]))] =
  MkAFO op (map mk_item (seen ++ (if has_filter i then (if existsb (fun j => same_item j i) seen then [] else [i]) else []))%list).
Proof.
  intros Fs A. unfold afo_push. cbn [fold_left afo_push1 afo_op afo_mem]. unfold push1, afo_policy, has_filter.
  destruct (String.eqb_spec (snd i) "") as [E|E]; cbn [negb].
  - rewrite E, filter_empty, app_nil_r. destruct (afo_contains _ _); [reflexivity|].
    unfold af_valid. cbn. now destruct (String.length (fst i) =? 0)%nat.
  - rewrite filter_some by exact E. change (Some (Some (fst i), Some (snd i))) with (mk_item i).
    destruct (item_string i (attr_name_nonempty _ A) E) as [S V]. rewrite V.
    assert (C : afo_contains (map mk_item seen) (mk_item i) = existsb (fun j => same_item j i) seen).
    { unfold afo_contains. clear V. induction Fs as [|j seen [Aj Nj] Fs IH]; [reflexivity|]. cbn [map existsb]. rewrite IH. f_equal.
      destruct (item_string j (attr_name_nonempty _ Aj) Nj) as [Sj _]. rewrite S, Sj. apply Bool.eq_iff_eq_true.
      rewrite String.eqb_eq, same_item_eq. split; [now apply item_text_inj|now intros ->]. }
    rewrite C. destruct (existsb _ seen); [now rewrite app_nil_r|]. now rewrite map_app.
Qed.
Lemma parse_items_all op seq : forall seen r, Forall (fun i => attr_name (fst i) /\ snd i <> "") seen ->
  parse_items seq (MkAFO op (map mk_item seen)) = Some r <->
  exists items, Forall2 piece_of (map trim_space seq) items /\
    r = MkAFO op (map mk_item (seen ++ firsts_by same_item (filter has_filter items) seen)%list).
Proof.
  induction seq as [|x seq IH]; intros seen r Fs; cbn [parse_items map].
  - split.
    + intros H. injection H as <-. exists []. split; [constructor|]. cbn. now rewrite app_nil_r.
    + intros (items & F & ->). inversion F; subst. cbn. now rewrite app_nil_r.
  - assert (K : forall i, attr_name (fst i) -> forall items,
      (seen ++ (if has_filter i then if existsb (fun j => same_item j i) seen then [] else [i] else []))%list = seen /\
        firsts_by same_item (filter has_filter (i :: items)) seen = firsts_by same_item (filter has_filter items) seen \/
      (snd i <> "" /\ (seen ++ (if has_filter i then if existsb (fun j => same_item j i) seen then [] else [i] else []))%list = (seen ++ [i])%list /\
        firsts_by same_item (filter has_filter (i :: items)) seen = i :: firsts_by same_item (filter has_filter items) (seen ++ [i])%list)).
    { intros i A items. cbn [filter]. destruct (has_filter i) eqn:HF.
      - cbn [firsts_by]. destruct (existsb _ seen); [left; now rewrite app_nil_r|right]. split; [|split; reflexivity].
        unfold has_filter in HF. destruct (String.eqb_spec (snd i) ""); [discriminate|assumption].
      - left. now rewrite app_nil_r. }
    split.
    + destruct (parseAttributeFilter (trim_space x)) as [f|] eqn:E; [|discriminate].
      destruct (parse_filter_inv _ _ E) as (i & P & ->). destruct P as [P A]. rewrite afo_push_item by assumption. intros H.
      destruct (K i A []) as [[K1 _]|(NE & K1 & _)]; rewrite K1 in H.
      * apply IH in H as (items & F & ->); [|exact Fs]. exists (i :: items). split; [constructor; [now split|exact F]|].
        destruct (K i A items) as [[_ ->]|(_ & K2 & _)]; [reflexivity|].
        rewrite K1 in K2. apply (f_equal (@List.length _)) in K2. rewrite app_length in K2. cbn in K2. lia.
      * apply IH in H as (items & F & ->).
        2: { apply Forall_app. split; [exact Fs|]. now constructor. }
        exists (i :: items). split; [constructor; [now split|exact F]|].
        destruct (K i A items) as [[K2 _]|(_ & _ & ->)].
        { rewrite K1 in K2. apply (f_equal (@List.length _)) in K2. rewrite app_length in K2. cbn in K2. lia. }
        now rewrite <- app_assoc.
    + intros (items & F & ->). inversion F as [|? i ? items' P F']; subst. rewrite (parse_filter_piece _ i P). destruct P as [P A].
      rewrite afo_push_item by assumption. destruct (K i A items') as [[-> ->]|(NE & -> & ->)].
      * apply IH; [exact Fs|]. now exists items'.
      * apply IH; [apply Forall_app; split; [exact Fs|now constructor]|]. exists items'. split; [exact F'|]. now rewrite <- app_assoc.
Qed.

(* ---- lists of operations ---- *)
Definition ok_op (o : N * list (string * string)) : Prop :=
  In (fst o) [AddOp; DelOp] /\ snd o <> [] /\ Forall ok_item (snd o) /\ NoDup (snd o).
Definition mk_op (o : N * list (string * string)) : afo := MkAFO (fst o) (map mk_item (snd o)).
Lemma mk_op_string o : ok_op o -> afo_string (mk_op o) = op_text (fst o) (snd o).
Proof. intros (_ & _ & F & _). now apply op_string. Qed.
Lemma mk_item_inj l : forall l', map mk_item l = map mk_item l' -> l = l'.
Proof.
  induction l as [|[a f] l IH]; intros [|[b g] l'] H; try discriminate; [reflexivity|]. cbn [map] in H.
  unfold mk_item in H at 1 3. cbn in H. injection H as -> -> H. f_equal. now apply IH.
Qed.
Lemma op_text_inj o o' : ok_op o -> ok_op o' -> op_text (fst o) (snd o) = op_text (fst o') (snd o') -> o = o'.
Proof.
  intros (A & B & C & D) (A' & B' & C' & D') E. apply (f_equal parseAFO) in E. rewrite !parse_op_text in E by assumption.
  injection E as E1 E2. apply mk_item_inj in E2. destruct o, o'; cbn in *; congruence.
Qed.
Lemma parse_op_plain o : ok_op o -> unquote (condenseWHSP (op_text (fst o) (snd o))) = op_text (fst o) (snd o) /\
  hasAFOPrefix (op_text (fst o) (snd o)) = true.
Proof.
  intros (A & B & C & D). split; [now apply op_text_plain|]. unfold op_text. destruct A as [<-|[<-|[]]]; reflexivity.
Qed.
Lemma parse_ops_spec ops : Forall ok_op ops -> forall seen d, Forall ok_op seen -> NoDup (seen ++ ops)%list ->
  parse_ops (map (fun o => op_text (fst o) (snd o)) ops) (MkAFOs d (map mk_op seen)) = Some (MkAFOs d (map mk_op (seen ++ ops)%list)).
Proof.
  induction 1 as [|o ops Ho F IH]; intros seen d Fs D; cbn [map parse_ops]; [now rewrite app_nil_r|].
  destruct (parse_op_plain o Ho) as [-> ->]. destruct Ho as (A & B & C & E). rewrite parse_op_text by assumption.
  unfold afos_push. cbn [fold_left afos_push1 afos_delim afos_mem]. unfold push1, afos_policy.
  change (MkAFO (fst o) (map mk_item (snd o))) with (mk_op o).
  assert (Ho : ok_op o) by now split.
  assert (X : afos_contains (map mk_op seen) (mk_op o) = false).
  { unfold afos_contains. apply existsb_false. intros y Hy. apply in_map_iff in Hy as (j & <- & Hj).
    rewrite Forall_forall in Fs. rewrite !mk_op_string by auto. apply String.eqb_neq. intros Q. apply op_text_inj in Q; auto. subst j.
    apply NoDup_remove_2 in D. apply D, in_app_iff. now left. }
  rewrite X. cbn [mk_op afo_mem]. rewrite map_length. destruct (snd o) as [|i l] eqn:Eo; [easy|]. cbn [List.length Nat.ltb Nat.leb].
  change [mk_op o] with (map mk_op [o]). rewrite <- map_app. replace (seen ++ o :: ops)%list with ((seen ++ [o]) ++ ops)%list in * by now rewrite <- app_assoc.
  apply IH; [|exact D]. apply Forall_app. split; [exact Fs|]. now constructor.
Qed.
Definition free (c : ascii) (o : N * list (string * string)) : Prop :=
  forall i, In i (snd o) -> ~ In c (chars (fst i)) /\ ~ In c (chars (snd i)).
Definition plain_op (o : N * list (string * string)) : Prop :=
  forall i, In i (snd o) -> ~ occurs "add=" (snd i) /\ ~ occurs "delete=" (snd i).
Lemma op_text_free c o : In c [","%char; ";"%char] -> In (fst o) [AddOp; DelOp] -> free c o -> no_byte c (op_text (fst o) (snd o)) = true.
Proof.
  intros C O F. unfold op_text. rewrite !no_byte_app.
  rewrite (no_byte_join c " && ").
  - destruct C as [<-|[<-|[]]]; destruct O as [<-|[<-|[]]]; reflexivity.
  - destruct C as [<-|[<-|[]]]; reflexivity.
  - intros x Hx. apply in_map_iff in Hx as (i & <- & Hi). destruct (F i Hi) as [A B]. apply no_byte_chars in A, B.
    unfold item_text. rewrite !no_byte_app, A, B. destruct C as [<-|[<-|[]]]; reflexivity.
Qed.
Lemma parse_ops_text ops c : In c [","%char; ";"%char] -> ops <> [] -> Forall ok_op ops -> NoDup ops ->
  Forall plain_op ops -> Forall (free c) ops ->
  parseAFOs (join (String c "") (map (fun o => op_text (fst o) (snd o)) ops)) (Ascii.eqb c ";") = Some (MkAFOs "," (map mk_op ops)).
Proof.
  intros C NE F D P Fr. unfold parseAFOs. set (ts := map (fun o => op_text (fst o) (snd o)) ops).
  assert (NT : ts <> []) by (subst ts; destruct ops; [easy|discriminate]).
  rewrite Forall_forall in F, P, Fr.
  assert (Cn : op_count (join (String c "") ts) = List.length ts).
  { apply count_ops; [|exact NT|].
    - intros p [->| ->]; destruct C as [<-|[<-|[]]]; reflexivity.
    - intros t Ht. apply in_map_iff in Ht as (o & <- & Ho). destruct (F o Ho) as (A & B & E & _).
      apply count_op_text; [exact A|exact B|]. intros i Hi. destruct (P o Ho i Hi). split; [|now split].
      rewrite Forall_forall in E. destruct (E i Hi) as [[N _] _]. apply attr_name_no; [exact N|reflexivity|discriminate]. }
  rewrite Cn. replace (if Ascii.eqb c ";" then ";"%char else ","%char) with c by (destruct C as [<-|[<-|[]]]; reflexivity).
  rewrite split1_join; [|exact NT|].
  - rewrite Nat.eqb_refl. destruct ts as [|t ts'] eqn:Et; [easy|]. cbn [List.length Nat.eqb negb]. rewrite <- Et. subst ts.
    unfold AFOs0. change (@nil afo) with (map mk_op []). rewrite parse_ops_spec; [reflexivity|now rewrite Forall_forall|constructor|exact D].
  - intros x Hx. apply in_map_iff in Hx as (o & <- & Ho). apply op_text_free; [exact C|now apply F|now apply Fr].
Qed.
Lemma mk_ops_string ops c : Forall ok_op ops ->
  afos_string (MkAFOs c (map mk_op ops)) = join (String c "") (map (fun o => op_text (fst o) (snd o)) ops).
Proof.
  intros F. unfold afos_string. cbn [afos_delim afos_mem]. f_equal. rewrite map_map. apply map_ext_in. intros o Ho.
  rewrite Forall_forall in F. now apply mk_op_string, F.
Qed.
Lemma neat_app a b : neat a -> neat b -> neat (a ++ b).
Proof.
  intros (w & ws & -> & W & Ws) B. revert w W. induction Ws as [|u ws U Ws IH]; intros w W; [now apply neat_prefix|].
  rewrite join_cons, !app_assoc'. apply neat_join; [now apply neat_word|]. now apply IH.
Qed.
Lemma neat_joinc c ts : word (String c "") -> ts <> [] -> Forall neat ts -> neat (join (String c "") ts).
Proof.
  intros C N F. induction F as [|t ts Ht F IH]; [easy|]. destruct ts as [|u ts]; [exact Ht|].
  rewrite join_cons. apply neat_app; [exact Ht|]. apply neat_prefix; [exact C|]. now apply IH.
Qed.
