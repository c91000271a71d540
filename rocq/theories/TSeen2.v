(* C175, C176: what String of a day list or of an inheritance shows while other goroutines
   change it, read back. *)
From Coq Require Import String List PeanoNat NArith ZArith Bool Lia.
From Verif Require Import GoStr Shifty PRights MHeap MKw MTime STime PTime TTime MAttr MLevels SAttr PAttr TAttr TLevels MWord SWord TWord MSeen SSeen TSeen.
Import ListNotations.
Open Scope list_scope.

Lemma days_read sh (g : day -> bool) : shifty_ok sh -> days_where g <> [] ->
  exists o, parseDoW sh (text_of_days (days_where g)) = Some o /\ forall d, dow_positive sh o (day_const d) = g d.
Proof.
  intros OK N. pose (h := [DShift (map (fun d => DDay (day_const d)) (days_where g))]).
  assert (H : dcalls_ok h).
  { intros c x [<-|[]] I. apply in_map_iff in I as (d & <- & _). now destruct d. }
  assert (D : forall d, day_in false h d = g d).
  { intros d. unfold h. cbn [day_in dcall_args is_dshift]. destruct (g d) eqn:G.
    - replace (existsb _ _) with true; [reflexivity|]. symmetry. apply existsb_exists. exists (DDay (day_const d)). split; [|now destruct d].
      apply in_map_iff. exists d. split; [reflexivity|]. unfold days_where. rewrite filter_In. split; [now destruct d; cbn; auto 10|exact G].
    - replace (existsb _ _) with false; [reflexivity|]. symmetry. apply not_true_is_false. intros X. apply existsb_exists in X as (x & I & M).
      apply in_map_iff in I as (d' & <- & I). unfold days_where in I. apply filter_In in I as [_ I]. assert (d' = d) by (destruct d, d'; (reflexivity || discriminate M)). congruence. }
  assert (F : filter (day_in false h) all_days = days_where g) by (apply filter_ext; exact D).
  assert (X : exists d, day_in false h d = true).
  { destruct (days_where g) as [|d l] eqn:E; [now elim N|]. exists d. rewrite D. assert (I : In d (days_where g)) by (rewrite E; now left). now apply filter_In in I. }
  assert (T := C10_text sh OK h H). rewrite F in T. specialize (T N).
  assert (R := C10_round_trip sh OK h H X). exists (dow_run sh None h). split.
  - rewrite T in R. unfold text_of_days. destruct (days_where g); [now elim N|exact R].
  - intros d. rewrite <- D. now apply C10_history.
Qed.
(* A text of a day list, printed while it changes, is the mark of an empty list or can be read:
   it then gives the days it shows. *)
Theorem C175_days_back : forall sh, shifty_ok sh -> forall h0 v css q t, dcalls_ok h0 -> dow_run sh (DoW sh []) h0 = Some v ->
  (forall cs, In cs css -> dcalls_ok cs) ->
  let s := dow_string_at sh v css q t in
  s = "<invalid_days>"%string \/
  exists o, parseDoW sh s = Some o /\ dow_string sh o = s /\
    forall d, ((forall cs, In cs css -> ~ gives_day cs d) -> dow_positive sh (Some v) (day_const d) = false -> dow_positive sh o (day_const d) = false) /\
              ((forall cs, In cs css -> ~ takes_day cs d) -> dow_positive sh (Some v) (day_const d) = true -> dow_positive sh o (day_const d) = true).
Proof.
  intros sh OK h0 v css q t H0 R C s. unfold s. rewrite (C176_days_exact sh OK h0) by assumption.
  set (g := fun d => day_at sh v css q (t (day_pos d)) d).
  destruct (days_where g) as [|d0 l] eqn:E; [now left|right].
  destruct (days_read sh g OK) as (o & P & D); [rewrite E; discriminate|]. rewrite E in P. exists o. split; [exact P|]. split.
  - assert (A : o <> None) by (intros ->; assert (I : In d0 (days_where g)) by (rewrite E; now left); apply filter_In in I as [_ I]; rewrite <- D in I; discriminate I).
    destruct o as [u|]; [|now elim A]. assert (Su : small u).
    { assert (Y := parse_spec sh OK (text_of_days (d0 :: l))). rewrite P in Y. destruct Y as (_ & (u' & Y & Z) & _). now injection Y as ->. }
    change (dow_string sh (Some u)) with (dow_string_seen sh (fun _ => u)). rewrite (days_seen sh OK) by (intros _; exact Su). rewrite <- E. f_equal. apply filter_ext. exact D.
  - intros d. rewrite D. unfold g, day_at, dow_bits_at. exact (C148_days sh OK h0 v css (firstn (t (day_pos d)) q) d H0 R C).
Qed.
(* A text of an inheritance, printed while it changes, has no level or can be read: it then
   gives the levels it shows.  It can be read if some level stays. *)
Theorem C175_levels_back : forall sh, shifty_ok sh -> forall fp kw x w init h0 v css q t0 t, kw = BindUAT \/ kw = BindGAT -> attr_name x -> what_ok w ->
  let a := MkABTV kw (Some (pair_of x w)) in
  lcalls_ok (IShift init :: h0) -> inh_run sh (Inherit sh a init) h0 = Some (MkInh v a) -> (forall cs, In cs css -> lcalls_ok cs) ->
  let s := inh_string_at sh fp a v css q t0 t in
  (s = text_of_levels (x ++ "#" ++ what_text w) [] \/
   exists i, parseInheritance sh s = IOk i /\ exists ns, s = text_of_levels (x ++ "#" ++ what_text w) ns /\ forall n, (n < 10)%N -> inh_positive sh i (LInt (Z.of_N n)) = true <-> In n ns) /\
  ((exists n, (n < 10)%N /\ inh_positive sh (Some (MkInh v a)) (LLevel (level_const n)) = true /\ forall cs, In cs css -> ~ takes_level cs n) ->
   exists i, parseInheritance sh s = IOk i).
Proof.
  intros sh OK fp kw x w init h0 v css q t0 t K X W a H0 R C s.
  assert (Za : abtv_isZero a = false) by (destruct K as [-> | ->]; reflexivity).
  assert (St : abtv_string a = Some (x ++ "#" ++ what_text w)%string) by (now apply C23_round_trip).
  destruct (C175_levels sh OK fp a _ init h0 v css q t0 t Za St H0 R C) as (ns & E & L & _ & Kp).
  assert (B : ns <> [] -> exists i, parseInheritance sh s = IOk i /\ forall n, (n < 10)%N -> inh_positive sh i (LInt (Z.of_N n)) = true <-> In n ns)
    by (intros N; unfold s; rewrite E; exact (C08_known_levels_partial sh OK ns x w N L X W)).
  split.
  - destruct ns as [|n ns]; [left; exact E|right]. destruct B as (i & P & Q); [discriminate|]. exists i. split; [exact P|]. exists (n :: ns). now split.
  - intros (n & Ln & P & T). specialize (Kp n Ln T P). destruct B as (i & Pi & _); [intros ->; exact Kp|]. now exists i.
Qed.
(* Not every text can be read, though there is a level at every moment (C176_refuted). *)
Theorem C176_back_refuted :
  ~ (forall sh, shifty_ok sh -> forall fp kw x w init h0 v css q t0 t, kw = BindUAT \/ kw = BindGAT -> attr_name x -> what_ok w ->
      let a := MkABTV kw (Some (pair_of x w)) in
      lcalls_ok (IShift init :: h0) -> inh_run sh (Inherit sh a init) h0 = Some (MkInh v a) -> (forall cs, In cs css -> lcalls_ok cs) -> in_order t0 t ->
      exists i, parseInheritance sh (inh_string_at sh fp a v css q t0 t) = IOk i).
Proof.
  intros H. destruct (H shifty_ref shifty_ref_ok ""%string BindUAT "manager"%string (WType USERDN) [LInt 1] [] 4%N [[IShift [LInt 0]; IUnshift [LInt 1]]] [0; 0; 0; 0]%nat 0%nat
      (fun i => if (i <=? 1)%N then 0%nat else 4%nat)) as (i & K).
  - now left.
  - apply C23_witness.
  - apply C23_witness.
  - intros c x [<-|[]] [<-|[]]. cbn. lia.
  - reflexivity.
  - intros cs [<-|[]] c x [<-|[<-|[]]] [<-|[]]; cbn; lia.
  - split; intros; repeat match goal with |- context[(?a <=? 1)%N] => destruct (N.leb_spec a 1) end; lia.
  - discriminate K.
Qed.
Print Assumptions C175_days_back.
Print Assumptions C175_levels_back.
Print Assumptions C176_back_refuted.
