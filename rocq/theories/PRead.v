(* Lemmas on reading the text of a rule tree (C47). *)
From Coq Require Import String Ascii List PeanoNat NArith ZArith Bool Lia.
From Verif Require Import GoStr GoStrFacts MMisc MLists MKw SKw PKw MRule PRule MConv MTree STree PTree.
Import ListNotations.
Open Scope string_scope.

(* ---- the lexer ---- *)
Definition L (s : string) (ts : list token) : Prop :=
  forall rest, lex LStart (s ++ rest) = option_map (app ts) (lex LStart rest).
Lemma option_map_id {A} (o : option (list A)) : option_map (app []) o = o.
Proof. now destruct o. Qed.
Lemma cons_tok_map t o : cons_tok t o = option_map (app [t]) o.
Proof. now destruct o. Qed.
Lemma L_nil : L "" [].
Proof. intros rest. now rewrite option_map_id. Qed.
Lemma L_app a b ta tb : L a ta -> L b tb -> L (a ++ b) (ta ++ tb)%list.
Proof.
  intros A B rest. rewrite app_assoc', A, B. destruct (lex LStart rest); [|reflexivity]. cbn [option_map]. now rewrite app_assoc.
Qed.
Lemma L_space : L " " [].
Proof. intros rest. cbn [append lex Ascii.eqb Bool.eqb]. now rewrite option_map_id. Qed.
Lemma L_lp : L "(" [TLp].
Proof. intros rest. cbn [append lex Ascii.eqb Bool.eqb]. apply cons_tok_map. Qed.
Lemma L_rp : L ")" [TRp].
Proof. intros rest. cbn [append lex Ascii.eqb Bool.eqb]. apply cons_tok_map. Qed.
Lemma L_bars : L " || " [TBar].
Proof. intros rest. cbn [append lex Ascii.eqb Bool.eqb]. apply cons_tok_map. Qed.
Lemma L_padding b : L (padding b) [].
Proof. destruct b; [exact L_space|exact L_nil]. Qed.
Lemma snoc_app a c r : snoc a c ++ r = a ++ String c r.
Proof. unfold snoc. now rewrite app_assoc'. Qed.
Lemma lex_val s : no_byte """" s = true -> forall a rest, lex (LVal a) (s ++ String """" rest) = cons_tok (TVal (a ++ s)) (lex LStart rest).
Proof.
  induction s as [|c s IH]; intros H a rest.
  - cbn [append lex]. rewrite Ascii.eqb_refl. now rewrite app_nil_r'.
  - rewrite no_byte_cons in H. apply andb_true_iff in H as [Hc H]. apply negb_true_iff in Hc. rewrite Ascii.eqb_sym in Hc.
    cbn [append lex]. rewrite Hc, (IH H). f_equal. f_equal. apply snoc_app.
Qed.
Lemma L_quote s : no_byte """" s = true -> L (quote s) [TVal s].
Proof.
  intros H rest. unfold quote, dq. rewrite !app_assoc'. cbn [append lex Ascii.eqb Bool.eqb]. rewrite lex_val by exact H.
  apply cons_tok_map.
Qed.
Lemma lex_word w : all_bytes word_byte w = true -> forall a c rest, word_byte c = false ->
  lex (LWord a) (w ++ String c rest) = cons_tok (TWord (a ++ w)) (lex LStart (String c rest)).
Proof.
  induction w as [|d w IH]; intros H a c rest C.
  - cbn [append]. rewrite app_nil_r'. cbn [lex]. rewrite C. reflexivity.
  - cbn [all_bytes] in H. apply andb_true_iff in H as [Hd H]. cbn [append]. cbn [lex]. rewrite Hd, (IH H _ _ _ C). f_equal. f_equal. apply snoc_app.
Qed.
Lemma word_start d r : word_byte d = true -> lex LStart (String d r) = lex (LWord (String d "")) r.
Proof.
  intros H. assert (X : forall x, word_byte x = false -> Ascii.eqb d x = false).
  { intros x N. apply Ascii.eqb_neq. intros ->. congruence. }
  cbn [lex]. now rewrite !X, H.
Qed.
Lemma L_word w c s ts : w <> "" -> all_bytes word_byte w = true -> word_byte c = false -> L (String c s) ts -> L (w ++ String c s) (TWord w :: ts).
Proof.
  destruct w as [|d w]; [easy|]. intros _ H C K rest. cbn [all_bytes] in H. apply andb_true_iff in H as [Hd H].
  rewrite app_assoc'. cbn [append]. rewrite word_start by exact Hd. rewrite lex_word by trivial.
  change (String c (s ++ rest)) with (String c s ++ rest). rewrite K. cbn [append]. now destruct (lex LStart rest).
Qed.
Lemma lex_op w : all_bytes sign_byte w = true -> forall a c rest, sign_byte c = false ->
  lex (LOp a) (w ++ String c rest) = cons_tok (TOp (a ++ w)) (lex LStart (String c rest)).
Proof.
  induction w as [|d w IH]; intros H a c rest C.
  - cbn [append]. rewrite app_nil_r'. cbn [lex]. rewrite C. reflexivity.
  - cbn [all_bytes] in H. apply andb_true_iff in H as [Hd H]. cbn [append]. cbn [lex]. rewrite Hd, (IH H _ _ _ C). f_equal. f_equal. apply snoc_app.
Qed.
Lemma op_start o : exists d w, relop_symbol o = String d w /\ word_byte d = false /\ all_bytes sign_byte w = true /\
  forall r, lex LStart (String d r) = lex (LOp (String d "")) r.
Proof. destruct o; eexists; eexists; (split; [reflexivity|]); repeat split; reflexivity. Qed.
Lemma L_op o c s ts : sign_byte c = false -> L (String c s) ts -> L (relop_symbol o ++ String c s) (TOp (relop_symbol o) :: ts).
Proof.
  intros C K rest. destruct (op_start o) as (d & w & -> & _ & H & S). rewrite app_assoc'. cbn [append]. rewrite S.
  rewrite lex_op by trivial. change (String c (s ++ rest)) with (String c s ++ rest). rewrite K. cbn [append]. now destruct (lex LStart rest).
Qed.
Lemma L_spaced w : w <> "" -> all_bytes word_byte w = true -> L (w ++ " ") [TWord w].
Proof. intros N H. apply (L_word w " " "" []); trivial. exact L_space. Qed.
Lemma L_wrap p d s ts : L s ts -> L (wrap_paren p d s) (if p then TLp :: ts ++ [TRp] else ts)%list.
Proof.
  intros H. destruct p; [|exact H]. cbn [wrap_paren]. apply (L_app "(" _ [TLp] _ L_lp). apply (L_app _ _ [] _ (L_padding d)).
  apply (L_app s _ ts _ H). apply (L_app _ _ [] _ (L_padding d)). exact L_rp.
Qed.

(* values *)
Definition bar_tokens (l : list string) : list token := flat_map (fun s => [TBar; TVal s]) l.
Lemma L_values l : forall a, no_byte """" a = true -> (forall s, In s l -> no_byte """" s = true) ->
  L (join " || " (map quote (a :: l))) (TVal a :: bar_tokens l).
Proof.
  induction l as [|b l IH]; intros a A H.
  - now apply L_quote.
  - cbn [map] in *. rewrite join_cons. apply (L_app (quote a) _ [TVal a]); [now apply L_quote|].
    apply (L_app " || " _ [TBar] _ L_bars). apply IH; [apply H; now left|]. intros s Hs. apply H. now right.
Qed.
Lemma val_head c : rule_ok c -> exists s, val_text c = String """" s.
Proof.
  intros (_ & _ & _ & _ & _ & H). unfold val_text. destruct (c_ex c) as [[s|k [] l|z l]|].
  all: try (rewrite H; eexists; reflexivity).
  destruct H as [-> N]. cbn [expr_text]. unfold list_text. destruct l as [|a [|b l]]; [easy|eexists; reflexivity|].
  cbn [map]. rewrite join_cons. eexists. reflexivity.
Qed.
Definition ctoks (c : cond) : list token :=
  match shown c with [] => [] | a :: l => TVal a :: bar_tokens l end.
Lemma L_val c : rule_ok c -> shown c <> [] /\ L (val_text c) (ctoks c).
Proof.
  intros (_ & _ & _ & _ & Q & H). unfold ctoks, val_text, shown in *. destruct (c_ex c) as [[s|k [] l|z l]|].
  all: try (rewrite H; split; [discriminate|]; apply L_quote; apply Q; now left).
  destruct H as [-> N]. split; [exact N|]. destruct l as [|a l]; [easy|]. cbn [expr_text]. unfold list_text.
  apply L_values; [apply Q; now left|intros s Hs; apply Q; now right].
Qed.
Lemma sign_text c : rule_ok c -> exists o, op_text (c_op c) = relop_symbol o /\ sign_of c = relop_symbol o.
Proof.
  intros (_ & _ & _ & (o & E) & _). exists o. unfold op_text, sign_of. rewrite E. now destruct o.
Qed.
Definition atom_toks (c : cond) : list token := TWord (c_kw c) :: TOp (sign_of c) :: ctoks c.
Lemma L_cond c : rule_ok c -> L (cond_string c) (if c_paren c then TLp :: atom_toks c ++ [TRp] else atom_toks c)%list.
Proof.
  intros R. unfold cond_string. apply L_wrap. destruct (sign_text c R) as (o & E & S). rewrite E. unfold atom_toks. rewrite S.
  destruct (L_val c R) as [_ V]. destruct (val_head c R) as [v E2]. rewrite E2 in *.
  assert (O : L (relop_symbol o ++ padding (c_pad c) ++ String """" v) (TOp (relop_symbol o) :: ctoks c)).
  { destruct (c_pad c); cbn [padding]; cbn [append]; apply L_op; try reflexivity; [|exact V]. exact (L_app " " _ [] _ L_space V). }
  destruct R as (N & W & _). destruct (c_pad c); cbn [padding] in *; cbn [append] in *.
  - apply L_word; [exact N|exact W|reflexivity|]. exact (L_app " " _ [] _ L_space O).
  - destruct (op_start o) as (d & w & E3 & D & _). rewrite E3 in *. cbn [append] in *. now apply L_word.
Qed.

(* ---- the parser ---- *)
Definition stop (r : list token) : Prop := match r with [] | TRp :: _ | TWord _ :: _ => True | _ => False end.
Definition stop_and (r : list token) : Prop :=
  match r with [] | TRp :: _ => True | TWord w :: _ => is_word "and" w = false | _ => False end.
Definition stop_or (r : list token) : Prop := match r with [] | TRp :: _ => True | _ => False end.
Definition pu (ts : list token) (e : bexp) : Prop :=
  forall r n, stop r -> 3 * List.length ts + 1 <= n -> parse_unary n (ts ++ r) = Some (e, r).
Definition pa (ts : list token) (e : bexp) : Prop :=
  forall r n, stop_and r -> 3 * List.length ts + 2 <= n -> parse_and n (ts ++ r) = Some (e, r).
Definition po (ts : list token) (e : bexp) : Prop :=
  forall r n, stop_or r -> 3 * List.length ts + 3 <= n -> parse_or n (ts ++ r) = Some (e, r).
Lemma stop_and_stop r : stop_and r -> stop r.
Proof. now destruct r as [|[] r]. Qed.
Lemma stop_or_and r : stop_or r -> stop_and r.
Proof. now destruct r as [|[] r]. Qed.
Lemma pu_pa ts e : pu ts e -> pa ts e.
Proof.
  intros H r [|n] S L0; [lia|]. cbn [parse_and]. rewrite (H r n (stop_and_stop r S)) by lia.
  destruct r as [|[] r]; try reflexivity; try now destruct S. cbn [stop_and] in S. now rewrite S.
Qed.
Lemma pa_po ts e : pa ts e -> po ts e.
Proof.
  intros H r [|n] S L0; [lia|]. cbn [parse_or]. rewrite (H r n (stop_or_and r S)) by lia.
  destruct r as [|[] r]; try reflexivity; now destruct S.
Qed.
Lemma pa_and ta ea w tb eb : pu ta ea -> is_word "and" w = true -> pa tb eb -> pa (ta ++ TWord w :: tb) (EAnd ea eb).
Proof.
  intros A W B r [|n] S L0; [lia|]. rewrite app_length in L0. cbn [List.length] in L0. cbn [parse_and]. rewrite <- app_assoc. cbn [app].
  rewrite (A (TWord w :: tb ++ r)%list n I) by lia. rewrite W. rewrite (B r n S) by lia. reflexivity.
Qed.
Lemma or_not_and w : is_word "or" w = true -> is_word "and" w = false.
Proof. unfold is_word. intros H. apply String.eqb_eq in H. now rewrite H. Qed.
Lemma po_or ta ea w tb eb : pa ta ea -> is_word "or" w = true -> po tb eb -> po (ta ++ TWord w :: tb) (EOr ea eb).
Proof.
  intros A W B r [|n] S L0; [lia|]. rewrite app_length in L0. cbn [List.length] in L0. cbn [parse_or]. rewrite <- app_assoc. cbn [app].
  rewrite (A (TWord w :: tb ++ r)%list n) by (try lia; now apply or_not_and). rewrite W. rewrite (B r n S) by lia. reflexivity.
Qed.
Lemma pu_paren ts e : po ts e -> pu (TLp :: ts ++ [TRp]) e.
Proof.
  intros H r [|n] S L0; [lia|]. cbn [List.length] in L0. rewrite app_length in L0. cbn [List.length] in L0. cbn [app parse_unary].
  rewrite <- app_assoc. cbn [app]. rewrite (H (TRp :: r) n I) by lia. reflexivity.
Qed.
Lemma pu_not w ts e : is_word "not" w = true -> pu ts e -> pu (TWord w :: ts) (ENot e).
Proof.
  intros W H r [|n] S L0; [lia|]. cbn [List.length] in L0. cbn [app parse_unary]. rewrite W, (H r n S) by lia. reflexivity.
Qed.
Lemma more_bars l r : stop r -> more_values (bar_tokens l ++ r) = (l, r).
Proof.
  intros S. induction l as [|a l IH]; [now destruct r as [|[] r]|]. cbn [bar_tokens flat_map app]. cbn [more_values].
  fold (bar_tokens l). now rewrite IH.
Qed.
Lemma pu_atom c : rule_ok c -> pu (atom_toks c) (EAtom (c_kw c) (sign_of c) (shown c)).
Proof.
  intros R r [|n] S L0; [lia|]. destruct (L_val c R) as [N _]. destruct R as (_ & _ & W & _). unfold atom_toks, ctoks in *.
  destruct (shown c) as [|a l]; [easy|]. cbn [app parse_unary].
  assert (X : is_word "not" (c_kw c) = false).
  { unfold is_word. apply String.eqb_neq. intros E. apply W. rewrite E. right. right. now left. }
  rewrite X, more_bars by exact S. reflexivity.
Qed.
Lemma pu_nonempty ts e : pu ts e -> ts <> [].
Proof. intros H ->. specialize (H [] 1 I ltac:(cbn; lia)). discriminate H. Qed.

(* chains *)
Definition fn := (string -> string -> list string -> bool) -> bool.
Inductive CA : list token -> fn -> Prop :=
| CA1 ts e (f : fn) : pu ts e -> (forall v, f v = value v e) -> CA ts f
| CAn ts e w ts' (g h : fn) : pu ts e -> is_word "and" w = true -> CA ts' g -> (forall v, h v = value v e && g v) -> CA (ts ++ TWord w :: ts') h.
Inductive CO : list token -> fn -> Prop :=
| CO1 ts (f : fn) : CA ts f -> CO ts f
| COn ts w ts' (f g h : fn) : CA ts f -> is_word "or" w = true -> CO ts' g -> (forall v, h v = f v || g v) -> CO (ts ++ TWord w :: ts') h.
Lemma CA_app ta f : CA ta f -> forall w tb g h, is_word "and" w = true -> CA tb g -> (forall v, h v = f v && g v) -> CA (ta ++ TWord w :: tb) h.
Proof.
  induction 1 as [ts e f P V|ts e w ts' g0 h0 P W C IH V]; intros w' tb g h W' B H.
  - apply (CAn ts e w' tb g h); trivial. intros v. now rewrite H, V.
  - rewrite <- app_assoc. cbn [app]. apply (CAn ts e w _ (fun v => g0 v && g v) h); trivial.
    + now apply (IH w' tb g).
    + intros v. now rewrite H, V, andb_assoc.
Qed.
Lemma CO_app ta f : CO ta f -> forall w tb g h, is_word "or" w = true -> CO tb g -> (forall v, h v = f v || g v) -> CO (ta ++ TWord w :: tb) h.
Proof.
  induction 1 as [ts f P|ts w ts' f0 g0 h0 P W C IH V]; intros w' tb g h W' B H.
  - now apply (COn ts w' tb f g h).
  - rewrite <- app_assoc. cbn [app]. apply (COn ts w _ f0 (fun v => g0 v || g v) h); trivial.
    + now apply (IH w' tb g).
    + intros v. now rewrite H, V, orb_assoc.
Qed.
Lemma CA_parse ts f : CA ts f -> exists e, pa ts e /\ forall v, f v = value v e.
Proof.
  induction 1 as [ts e f P V|ts e w ts' g h P W C (e' & P' & V') V].
  - exists e. split; [now apply pu_pa|exact V].
  - exists (EAnd e e'). split; [now apply pa_and|]. intros v. cbn [value]. now rewrite V, V'.
Qed.
Lemma CO_parse ts f : CO ts f -> exists e, po ts e /\ forall v, f v = value v e.
Proof.
  induction 1 as [ts f P|ts w ts' f g h P W C (e' & P' & V') V].
  - destruct (CA_parse _ _ P) as (e & A & B). exists e. split; [now apply pa_po|exact B].
  - destruct (CA_parse _ _ P) as (e & A & B). exists (EOr e e'). split; [now apply po_or|]. intros v. cbn [value]. now rewrite V, V', B.
Qed.
Lemma CO_ext ts f g : CO ts f -> (forall v, g v = f v) -> CO ts g.
Proof.
  intros [ts' f' A|ts0 w ts' f0 g0 h A W B V] H.
  - constructor. destruct A as [ts0 e f0 P V|ts0 e w ts1 g0 h0 P W C V].
    + apply (CA1 _ e); trivial. intros v. now rewrite H.
    + apply (CAn _ e _ _ g0); trivial. intros v. now rewrite H.
  - apply (COn _ _ _ f0 g0); trivial. intros v. now rewrite H.
Qed.
Lemma CA_nonempty ts f : CA ts f -> ts <> [].
Proof. intros [ts' e g P _|ts' e w t g h P _ _ _]; [now apply (pu_nonempty _ e)|]. now destruct ts'. Qed.
Lemma CO_nonempty ts f : CO ts f -> ts <> [].
Proof. intros [ts' g A|ts' w t f0 g h A _ _ _]; [now apply (CA_nonempty _ g)|]. now destruct ts'. Qed.
(* what a text of a given level parses to *)
Definition reads (n : nat) (ts : list token) (f : fn) : Prop :=
  match n with 0 => CO ts f | 1 => CA ts f | _ => exists e, pu ts e /\ forall v, f v = value v e end.
Lemma reads_1 n ts f : 1 <= n -> reads n ts f -> CA ts f.
Proof. destruct n as [|[|n]]; cbn [reads]; [lia|trivial|]. intros _ (e & A & B). now apply (CA1 _ e). Qed.
Lemma reads_0 n ts f : reads n ts f -> CO ts f.
Proof.
  destruct n as [|n]; [trivial|]. intros H. constructor. apply (reads_1 (S n)); [lia|exact H].
Qed.
Lemma reads_nonempty n ts f : reads n ts f -> ts <> [].
Proof. intros H. eapply CO_nonempty, reads_0, H. Qed.
Lemma L_nonempty s ts : L s ts -> ts <> [] -> s <> "".
Proof. intros H N ->. specialize (H ""). cbn in H. injection H as E. rewrite app_nil_r in E. now apply N. Qed.
Lemma level_le t : level t <= 2.
Proof.
  induction t as [c|w p f d ks IH] using tree_ind'; [cbn; lia|]. cbn [level]. destruct p; [lia|].
  assert (K : forall k, ks = [k] -> level k <= 2) by (intros k ->; now inversion_clear IH).
  destruct w; [| |lia]; (destruct ks as [|k [|k2 ks]]; [lia|now apply K|lia]).
Qed.

(* ---- trees ---- *)
Section Trees.
Variable notsep : string.
Variable negated : list bool -> bool.
Hypothesis neg1 : forall b, negated [b] = negb b.
Definition of_rule (v : string -> string -> list string -> bool) (c : cond) : bool := v (c_kw c) (sign_of c) (shown c).
Definition mean (t : tree) : fn := fun v => meaning negated (of_rule v) t.
Definition mtext (k : tree) : string := with_not k (tstr notsep k).
Definition ok (t : tree) : Prop := exists ts, L (mtext t) ts /\ reads (level t) ts (mean t).
Lemma mtext_nonempty t : ok t -> mtext t <> "".
Proof. intros (ts & A & B). apply (L_nonempty _ ts A). now apply reads_nonempty in B. Qed.
Lemma nonempty_id l : (forall s, In s l -> s <> "") -> nonempty l = l.
Proof.
  unfold nonempty. induction l as [|a l IH]; intros H; [reflexivity|]. cbn [filter].
  destruct (Nat.eqb_spec (String.length a) 0) as [E|_].
  - exfalso. apply (H a (or_introl eq_refl)). now apply length0.
  - cbn [negb]. f_equal. apply IH. intros s Hs. apply H. now right.
Qed.
Lemma kids_text ks : Forall ok ks -> nonempty (map mtext ks) = map mtext ks.
Proof.
  intros H. apply nonempty_id. intros s Hs. apply in_map_iff in Hs as (k & <- & Hk). apply mtext_nonempty. now apply (proj1 (Forall_forall _ _) H).
Qed.
Lemma sep_text w f : w <> WNot -> exists x, separator notsep w f = " " ++ x ++ " " /\ x <> "" /\ all_bytes word_byte x = true /\
  is_word (lc (word_text w)) x = true.
Proof. intros N. destruct w, f; try (now destruct N); eexists; (split; [reflexivity|]); repeat split; try reflexivity; discriminate. Qed.
Lemma L_sep x : x <> "" -> all_bytes word_byte x = true -> L (" " ++ x ++ " ") [TWord x].
Proof. intros N W. apply (L_app " " _ [] _ L_space). now apply L_spaced. Qed.
Lemma and_list f ks : forall k, ok k -> Forall ok ks -> (forall x, In x (k :: ks) -> 1 <= level x) ->
  exists ts, L (join (separator notsep WAnd f) (map mtext (k :: ks))) ts /\
    CA ts (fun v => forallb (fun b => b) (map (fun t => mean t v) (k :: ks))).
Proof.
  destruct (sep_text WAnd f ltac:(discriminate)) as (x & E & N & W & I). rewrite E.
  induction ks as [|k2 ks IH]; intros k (ts & A & B) F H.
  - exists ts. split; [exact A|]. apply reads_1 in B; [|apply H; now left]. cbn [map forallb].
    destruct B as [t0 e g P V|t0 e w t1 g h P W' C V].
    + apply (CA1 _ e); trivial. intros v. now rewrite andb_true_r.
    + apply (CAn _ e _ _ g); trivial. intros v. now rewrite andb_true_r.
  - inversion_clear F as [|? ? O F']. destruct (IH k2 O F') as (ts' & A' & B'); [intros y Hy; apply H; now right|].
    exists (ts ++ TWord x :: ts')%list. split.
    + cbn [map] in *. rewrite join_cons. apply (L_app _ _ ts _ A). exact (L_app _ _ [TWord x] _ (L_sep x N W) A').
    + apply (CA_app ts (mean k)) with (g := fun v => forallb (fun b => b) (map (fun t => mean t v) (k2 :: ks))); trivial.
      apply reads_1 in B; [exact B|]. apply H. now left.
Qed.
Lemma or_list f ks : forall k, ok k -> Forall ok ks ->
  exists ts, L (join (separator notsep WOr f) (map mtext (k :: ks))) ts /\
    CO ts (fun v => existsb (fun b => b) (map (fun t => mean t v) (k :: ks))).
Proof.
  destruct (sep_text WOr f ltac:(discriminate)) as (x & E & N & W & I). rewrite E.
  induction ks as [|k2 ks IH]; intros k (ts & A & B) F.
  - exists ts. split; [exact A|]. apply reads_0 in B. apply (CO_ext _ _ _ B). intros v. cbn [map existsb]. apply orb_false_r.
  - inversion_clear F as [|? ? O F']. destruct (IH k2 O F') as (ts' & A' & B').
    exists (ts ++ TWord x :: ts')%list. split.
    + cbn [map] in *. rewrite join_cons. apply (L_app _ _ ts _ A). exact (L_app _ _ [TWord x] _ (L_sep x N W) A').
    + apply (CO_app ts (mean k)) with (g := fun v => existsb (fun b => b) (map (fun t => mean t v) (k2 :: ks))); trivial.
      now apply reads_0 in B.
Qed.
Lemma reads_paren ts f : CO ts f -> exists e, pu (TLp :: ts ++ [TRp]) e /\ forall v, f v = value v e.
Proof. intros H. destruct (CO_parse _ _ H) as (e & A & B). exists e. split; [now apply pu_paren|exact B]. Qed.
Lemma reads_ext n ts f g : reads n ts f -> (forall v, g v = f v) -> reads n ts g.
Proof.
  destruct n as [|[|n]]; cbn [reads]; intros H E.
  - now apply (CO_ext _ f).
  - destruct H as [t0 e f P V|t0 e w t1 g0 h P W' C V]; [apply (CA1 _ e)|apply (CAn _ e _ _ g0)]; trivial; intros v; now rewrite E.
  - destruct H as (e & A & B). exists e. split; [exact A|]. intros v. now rewrite E.
Qed.
Lemma readable_kids w p f d ks : readable (Stk w p f d ks) -> ks <> [] /\ Forall readable ks /\
  match w with
  | WAnd => List.length ks = 1 \/ forall k, In k ks -> 1 <= level k
  | WOr => True
  | WNot => List.length ks = 1 /\ (p = true \/ forall k, In k ks -> level k = 2)
  end.
Proof.
  cbn [readable]. intros (A & B & C). split; [exact A|]. split; [|exact C]. clear A C. induction ks as [|k ks IH]; constructor; [apply B|apply IH, B].
Qed.
(* the part between the parentheses *)
Definition inner (w : word) (f : bool) (ks : list tree) : string := join (separator notsep w f) (map mtext ks).
Lemma inner_reads w f ks : w <> WNot -> ks <> [] -> Forall ok ks ->
  (w = WAnd -> List.length ks = 1 \/ forall k, In k ks -> 1 <= level k) ->
  exists ts, L (inner w f ks) ts /\ reads (level (Stk w false f true ks)) ts (fun v => combine negated w (map (fun t => mean t v) ks)).
Proof.
  intros NW N F H. destruct ks as [|k [|k2 ks]]; [easy| |].
  - inversion_clear F as [|? ? (ts & A & B) _]. exists ts. split; [exact A|]. destruct w; [| |easy]; cbn [level].
    + apply (reads_ext _ _ (mean k) _ B). intros v. cbn [map combine forallb]. apply andb_true_r.
    + apply (reads_ext _ _ (mean k) _ B). intros v. cbn [map combine existsb]. apply orb_false_r.
  - inversion_clear F as [|? ? O F']. destruct w; [| |easy]; cbn [level].
    + destruct (H eq_refl) as [X|X]; [discriminate|]. destruct (and_list f (k2 :: ks) k O F' X) as (ts & A & B). now exists ts.
    + destruct (or_list f (k2 :: ks) k O F') as (ts & A & B). now exists ts.
Qed.
Lemma tstr_stk w p f d ks : Forall ok ks -> tstr notsep (Stk w p f d ks) = wrap_paren p d (inner w f ks).
Proof. intros F. cbn [tstr]. fold mtext. unfold inner. now rewrite (kids_text ks F). Qed.
Theorem all_ok : forall t, readable t -> ok t.
Proof.
  induction t as [c|w p f d ks IH] using tree_ind'; intros R.
  - cbn [readable] in R. unfold ok, mtext. cbn [with_not tstr level]. eexists. split; [now apply L_cond|]. cbn [reads].
    exists (EAtom (c_kw c) (sign_of c) (shown c)). split; [|reflexivity].
    assert (P := pu_atom c R). destruct (c_paren c); [|exact P]. apply pu_paren, pa_po, pu_pa, P.
  - apply readable_kids in R as (N & RK & C).
    assert (F : Forall ok ks). { apply Forall_forall. intros k Hk. apply (proj1 (Forall_forall _ _) IH k Hk). now apply (proj1 (Forall_forall _ _) RK). }
    assert (M : forall v, mean (Stk w p f d ks) v = combine negated w (map (fun t => mean t v) ks)) by reflexivity.
    assert (WD : w = WNot \/ w <> WNot) by (destruct w; [now right|now right|now left]). destruct WD as [->|NW].
    + destruct C as [L1 C]. destruct ks as [|k [|k2 ks]]; try discriminate L1. inversion_clear F as [|? ? O _].
      unfold ok, mtext. cbn [with_not level]. rewrite tstr_stk by (now constructor). unfold inner. cbn [map join].
      destruct O as (ts & A & B).
      assert (X : exists e, pu (if p then TLp :: ts ++ [TRp] else ts)%list e /\ forall v, mean k v = value v e).
      { destruct p; [apply reads_paren; now apply reads_0 in B|]. destruct C as [C|C]; [discriminate|].
        rewrite (C k (or_introl eq_refl)) in B. exact B. }
      destruct X as (e & P & V). assert (LL := L_wrap p d _ _ A).
      exists (TWord (folded f "NOT") :: if p then TLp :: ts ++ [TRp] else ts)%list. split.
      * destruct f.
        -- exact (L_app _ _ [TWord "not"] _ (L_spaced "not" ltac:(discriminate) eq_refl) LL).
        -- exact (L_app _ _ [TWord "NOT"] _ (L_spaced "NOT" ltac:(discriminate) eq_refl) LL).
      * assert (Y : pu (TWord (folded f "NOT") :: if p then TLp :: ts ++ [TRp] else ts)%list (ENot e)) by (apply pu_not; [now destruct f|exact P]).
        destruct p; exists (ENot e); (split; [exact Y|]); intros v; rewrite M; cbn [map combine value]; now rewrite neg1, V.
    + destruct (inner_reads w f ks NW N F) as (ts & A & B); [intros ->; exact C|].
      unfold ok, mtext. replace (with_not (Stk w p f d ks) (tstr notsep (Stk w p f d ks))) with (tstr notsep (Stk w p f d ks)) by (now destruct w).
      rewrite tstr_stk by exact F. assert (LL := L_wrap p d _ _ A). eexists. split; [exact LL|]. destruct p.
      * cbn [level reads]. apply reads_paren. apply (CO_ext _ _ _ (reads_0 _ _ _ B)). exact M.
      * exact (reads_ext _ _ _ _ B M).
Qed.
Theorem read_text t : readable t -> exists e, read (mtext t) = Some e /\ forall v, value v e = mean t v.
Proof.
  intros R. destruct (all_ok t R) as (ts & A & B). apply reads_0, CO_parse in B as (e & P & V). exists e. split; [|now symmetry].
  unfold read. specialize (A ""). rewrite app_nil_r' in A. rewrite A. cbn [lex option_map]. rewrite app_nil_r.
  specialize (P [] (3 * List.length ts + 3) I (le_n _)). rewrite app_nil_r in P. now rewrite P.
Qed.
End Trees.
