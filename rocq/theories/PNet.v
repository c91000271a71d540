(* Lemmas for C19-C21. *)
From Coq Require Import String Ascii List PeanoNat NArith Bool Lia.
From Verif Require Import GoStr GoStrFacts MMisc MNet SAttr SNet PMisc PTime PAttr.
Import ListNotations.
Open Scope string_scope.

(* ---- bytes ---- *)
Lemma in_text_dec t c : in_text t c \/ ~ in_text t c.
Proof. unfold in_text. destruct (in_dec ascii_dec c (chars t)); auto. Qed.
Definition mem_text (t : string) (c : ascii) : bool := existsb (Ascii.eqb c) (chars t).
Lemma mem_text_iff t c : mem_text t c = true <-> in_text t c.
Proof.
  unfold mem_text, in_text. rewrite existsb_exists. split.
  - intros (x & H & E). now apply Ascii.eqb_eq in E as ->.
  - intros H. exists c. split; [easy|apply Ascii.eqb_refl].
Qed.
Lemma v4_byte c : ip_byte isValidV4Char c = mem_text v4_text c.
Proof. destruct c as [[] [] [] [] [] [] [] []]; vm_compute; reflexivity. Qed.
Lemma v6_byte c : ip_byte isValidV6Char c = mem_text v6_text c.
Proof. destruct c as [[] [] [] [] [] [] [] []]; vm_compute; reflexivity. Qed.
Lemma all_bytes_ext f g s : (forall c, f c = g c) -> all_bytes f s = all_bytes g s.
Proof. intros H. induction s as [|c s IH]; cbn; [easy|]. now rewrite H, IH. Qed.
Lemma valid_ip_iff s : isValidIP s = true <-> plausible s.
Proof.
  unfold isValidIP, isV4, isV6, plausible. destruct (Nat.leb_spec (String.length s) 1) as [L|L].
  - split; [discriminate|lia].
  - rewrite (all_bytes_ext _ _ s v4_byte), (all_bytes_ext _ _ s v6_byte), orb_true_iff, !all_bytes_chars.
    split.
    + intros H. split; [lia|]. destruct H as [H|H]; [left|right]; intros c Hc; apply mem_text_iff; auto.
    + intros [_ [H|H]]; [left|right]; intros c Hc; apply mem_text_iff; auto.
Qed.
Lemma strInSlice_false s l : strInSlice s l = false <-> ~ In s l.
Proof. rewrite <- strInSlice_in. destruct (strInSlice s l); split; congruence. Qed.

(* ---- first occurrences ---- *)
Lemma firsts_in l x : In x (firsts l) <-> In x l.
Proof.
  induction l as [|y l IH]; cbn [firsts In]; [easy|]. rewrite filter_In, IH.
  destruct (String.eqb_spec y x); cbn; intuition congruence.
Qed.
Lemma firsts_nodup l : NoDup (firsts l).
Proof.
  induction l as [|y l IH]; cbn [firsts]; constructor.
  - rewrite filter_In. rewrite String.eqb_refl. intros [_ H]. discriminate.
  - now apply NoDup_filter.
Qed.
Lemma filter_comm {A} (f g : A -> bool) l : filter f (filter g l) = filter g (filter f l).
Proof.
  induction l as [|x l IH]; [easy|]. cbn. destruct (f x) eqn:F, (g x) eqn:G; cbn; rewrite ?F, ?G, IH; reflexivity.
Qed.
Lemma filter_twice {A} (f : A -> bool) l : filter f (filter f l) = filter f l.
Proof. induction l as [|x l IH]; [easy|]. cbn. destruct (f x) eqn:F; cbn; rewrite ?F, IH; reflexivity. Qed.
Lemma firsts_snoc l x : firsts (l ++ [x]) = if strInSlice x l then firsts l else (firsts l ++ [x])%list.
Proof.
  induction l as [|y l IH]; [reflexivity|]. cbn [app firsts strInSlice]. rewrite IH.
  destruct (String.eqb_spec x y) as [->|N]; cbn [orb].
  - f_equal. destruct (strInSlice y l); [easy|]. rewrite filter_app. cbn. rewrite String.eqb_refl. cbn.
    now rewrite app_nil_r.
  - destruct (strInSlice x l); [easy|]. rewrite filter_app. cbn.
    destruct (String.eqb_spec y x); [congruence|]. reflexivity.
Qed.
Lemma firsts_idem l : NoDup l -> firsts l = l.
Proof.
  induction 1 as [|x l Hx H IH]; [easy|]. cbn [firsts]. rewrite IH. f_equal.
  clear -Hx. induction l as [|y l IH]; [easy|]. cbn. destruct (String.eqb_spec x y) as [->|]; [destruct Hx; now left|].
  cbn. f_equal. apply IH. intros H. apply Hx. now right.
Qed.
Lemma firsts_length l : (List.length (firsts l) <= List.length l)%nat.
Proof. apply NoDup_incl_length; [apply firsts_nodup|]. intros x. apply firsts_in. Qed.

Lemma filter_all {A} (f : A -> bool) l : (forall x, In x l -> f x = true) -> filter f l = l.
Proof.
  induction l as [|x l IH]; intros H; [easy|]. cbn [filter]. rewrite (H x) by now left.
  rewrite IH by (intros; apply H; now right). reflexivity.
Qed.
Lemma ip_set1_spec l x : ip_set1 (firsts (filter isValidIP l)) x = firsts (filter isValidIP (l ++ [x])).
Proof.
  unfold ip_set1, ip_unique. rewrite filter_app. cbn [filter].
  assert (E : isValidIP x = true -> (0 <? String.length x)%nat = true).
  { intros H. apply valid_ip_iff in H as [H _]. apply Nat.ltb_lt. lia. }
  assert (S : strInSlice x (firsts (filter isValidIP l)) = strInSlice x (filter isValidIP l)).
  { apply Bool.eq_iff_eq_true. rewrite !strInSlice_in. apply firsts_in. }
  rewrite S. destruct (isValidIP x) eqn:V.
  - rewrite E by easy. cbn [andb]. rewrite firsts_snoc. now destruct (strInSlice x (filter isValidIP l)).
  - rewrite app_nil_r. now repeat match goal with |- context [if ?b then _ else _] => destruct b end.
Qed.
Lemma ip_set_spec l xs : ip_set (firsts (filter isValidIP l)) xs = firsts (filter isValidIP (l ++ xs)).
Proof.
  unfold ip_set. revert l. induction xs as [|x xs IH]; intros l; cbn [fold_left]; [now rewrite app_nil_r|].
  rewrite ip_set1_spec, IH, <- app_assoc. reflexivity.
Qed.
Lemma ip_set_nil xs : ip_set [] xs = firsts (filter isValidIP xs).
Proof. exact (ip_set_spec [] xs). Qed.
Lemma ip_run_spec h l : ip_run (Some (firsts (filter isValidIP l))) h = Some (firsts (filter isValidIP (l ++ concat h))).
Proof.
  unfold ip_run. revert l. induction h as [|xs h IH]; intros l; cbn [fold_left concat]; [now rewrite app_nil_r|].
  unfold ipaddr_set at 2. rewrite ip_set_spec, IH, <- app_assoc. reflexivity.
Qed.

(* ---- labels ---- *)
Lemma label_chars_iff s : forall i l, label_loop i l s = true <->
  (forall k c, String.get k s = Some c -> labelCharsOK c (i + k) l = true).
Proof.
  induction s as [|c s IH]; intros i l; cbn [label_loop].
  - split; [intros _ k c H; destruct k; discriminate|easy].
  - rewrite andb_true_iff, IH. split.
    + intros [H H'] k d G. destruct k as [|k].
      * injection G as <-. now rewrite Nat.add_0_r.
      * replace (i + S k)%nat with (S i + k)%nat by lia. now apply H'.
    + intros H. split; [specialize (H 0%nat c eq_refl); now rewrite Nat.add_0_r in H|].
      intros k d G. replace (S i + k)%nat with (i + S k)%nat by lia. now apply H.
Qed.
Lemma get_chars k s c : String.get k s = Some c -> In c (chars s) /\ (k < String.length s)%nat.
Proof.
  revert k. induction s as [|d s IH]; intros [|k] H; try discriminate; cbn [chars In String.length].
  - injection H as <-. split; [now left|lia].
  - destruct (IH k H). split; [now right|lia].
Qed.
Lemma chars_get s c : In c (chars s) -> exists k, String.get k s = Some c.
Proof.
  induction s as [|d s IH]; [easy|]. intros [<-|H]; [now exists 0%nat|]. destruct (IH H) as [k E]. now exists (S k).
Qed.
Lemma get_last s c : String.get (String.length s - 1) s = Some c <-> exists r, s = r ++ String c "".
Proof.
  split.
  - induction s as [|d s IH]; [discriminate|]. destruct s as [|e s].
    + intros H. injection H as <-. now exists "".
    + intros H. destruct IH as [r E].
      * cbn [String.length] in *. replace (S (S (String.length s)) - 1)%nat with (S (S (String.length s) - 1)) in H by lia. exact H.
      * exists (String d r). cbn [append]. now rewrite E.
  - intros [r ->]. rewrite length_app. cbn [String.length]. replace (String.length r + 1 - 1)%nat with (String.length r) by lia.
    apply get_app.
Qed.
Definition piece_byte (c : ascii) : bool := is_letter c || mem_text "0123456789*-" c.
Lemma class_byte c : (negb (is_digit c) && negb (is_letter c) &&
      negb (Ascii.eqb c ".") && negb (Ascii.eqb c "*") && negb (Ascii.eqb c "-"))%bool = negb (piece_byte c || Ascii.eqb c ".").
Proof. destruct c as [[] [] [] [] [] [] [] []]; vm_compute; reflexivity. Qed.

(* a label or a dotted text *)
Definition dotted_ok (s : string) : Prop :=
  (1 <= String.length s <= 63)%nat /\
  (forall c, In c (chars s) -> piece_byte c = true \/ c = "."%char) /\
  (forall r, s <> String "-" r) /\ (forall r, s <> r ++ "-").
Lemma validLabel_iff s : validLabel s = true <-> dotted_ok s.
Proof.
  unfold validLabel, dotted_ok, labelMax.
  destruct (Nat.ltb_spec 0 (String.length s)) as [L|L]; [|cbn; split; [discriminate|lia]].
  destruct (Nat.leb_spec (String.length s) 63) as [L'|L']; [|cbn; split; [discriminate|lia]]. cbn [andb negb].
  rewrite label_chars_iff. cbn [Nat.add]. split.
  - intros H. split; [lia|]. split; [|split].
    + intros c Hc. apply chars_get in Hc as [k G]. specialize (H k c G). unfold labelCharsOK in H.
      rewrite class_byte in H. destruct (piece_byte c); [now left|]. right.
      destruct (Ascii.eqb_spec c "."); [easy|discriminate].
    + intros r ->. specialize (H 0%nat _ eq_refl). discriminate.
    + intros r ->. assert (G : String.get (String.length (r ++ "-") - 1) (r ++ "-") = Some "-"%char) by (apply get_last; now exists r).
      specialize (H _ _ G). unfold labelCharsOK in H. cbn in H. rewrite Nat.eqb_refl in H. now rewrite orb_true_r in H.
  - intros (_ & Hc & Hf & Hl) k c G. unfold labelCharsOK. rewrite class_byte.
    assert (P : (piece_byte c || Ascii.eqb c ".")%bool = true).
    { destruct (Hc c (proj1 (get_chars _ _ _ G))) as [->| ->]; [easy|apply orb_true_r]. }
    rewrite P. cbn [negb]. destruct (Ascii.eqb_spec c "-") as [->|]; [|easy]. cbn [andb].
    destruct (Nat.eqb_spec k 0) as [->|]; cbn [orb].
    + exfalso. destruct s as [|d s]; [discriminate|]. injection G as ->. now apply (Hf s).
    + destruct (Nat.eqb_spec k (String.length s - 1)) as [->|]; [|easy].
      exfalso. apply get_last in G as [r E]. now apply (Hl r).
Qed.
Lemma label_piece c : label_byte c <-> piece_byte c = true.
Proof.
  unfold piece_byte, label_byte. rewrite orb_true_iff, <- mem_text_iff.
  assert (B : is_letter c = existsb (fun r => byte_between (fst r) (snd r) c)
    [(65, 90); (97, 122); (170, 170); (181, 181); (186, 186); (192, 214); (216, 246); (248, 255)]%N)
    by (destruct c as [[] [] [] [] [] [] [] []]; vm_compute; reflexivity).
  rewrite B. reflexivity.
Qed.
Lemma label_ok_iff s : label_ok s <-> dotted_ok s /\ no_byte "." s = true.
Proof.
  unfold label_ok, dotted_ok. rewrite no_byte_chars.
  assert (E := label_piece).
  split.
  - intros (L & H & F). split; [split; [easy|split; [|easy]]|].
    + intros c Hc. left. now apply E, H.
    + intros D. apply H, E in D. discriminate.
  - intros ((L & H & F) & D). split; [easy|]. split; [|easy].
    intros c Hc. apply E. destruct (H c Hc) as [?| ->]; [easy|contradiction].
Qed.
Lemma pieces_spec sp dl c : process_pieces sp dl c =
  if forallb validLabel sp then Some (dl ++ sp, (c + total sp)%nat)%list else None.
Proof.
  revert dl c. induction sp as [|p sp IH]; intros dl c; cbn [process_pieces forallb].
  - unfold total. cbn. now rewrite app_nil_r, Nat.add_0_r.
  - destruct (validLabel p); cbn [negb andb]; [|easy]. rewrite IH. destruct (forallb validLabel sp); [|easy].
    rewrite <- app_assoc. cbn [app]. unfold total. cbn [map list_sum fold_right]. f_equal. f_equal. unfold list_sum. lia.
Qed.
Definition pieces (xs : list string) : list string := flat_map (split1 ".") xs.
Lemma total_app a b : total (a ++ b) = (total a + total b)%nat.
Proof. unfold total. now rewrite map_app, list_sum_app. Qed.
Lemma process_spec xs dl c : process_loop xs dl c =
  if (forallb validLabel xs && forallb validLabel (pieces xs))%bool
  then if ((0 <? c + total (pieces xs))%nat && (0 <? List.length (dl ++ pieces xs)%list)%nat)%bool
       then Some ((dl ++ pieces xs)%list, (c + total (pieces xs))%nat) else None
  else None.
Proof.
  revert dl c. induction xs as [|x xs IH]; intros dl c; cbn [process_loop forallb pieces flat_map].
  - unfold total. cbn. rewrite app_nil_r, Nat.add_0_r. reflexivity.
  - destruct (validLabel x) eqn:V; cbn [negb andb]; [|easy].
    destruct (idx "." x) as [i|] eqn:I.
    + rewrite pieces_spec. rewrite forallb_app. destruct (forallb validLabel (split1 "." x)); cbn [andb].
      * rewrite IH. fold (pieces xs). rewrite total_app, <- app_assoc, Nat.add_assoc. reflexivity.
      * now rewrite andb_false_r.
    + apply idx_none in I. rewrite (split1_none "." x I). cbn [app forallb]. rewrite V. cbn [andb].
      rewrite IH. fold (pieces xs). rewrite <- app_assoc. cbn [app].
      replace (total (x :: pieces xs)) with (String.length x + total (pieces xs))%nat by reflexivity.
      now rewrite Nat.add_assoc.
Qed.
Lemma split1_all f c s : all_bytes f s = true -> forall x, In x (split1 c s) -> all_bytes f x = true.
Proof.
  induction s as [|d s IH]; cbn [split1 all_bytes]; intros H x Hx.
  - destruct Hx as [<-|[]]. reflexivity.
  - apply andb_true_iff in H as [Hd Hs]. destruct (Ascii.eqb c d).
    + destruct Hx as [<-|Hx]; [reflexivity|now apply IH].
    + destruct (split1 c s) as [|h t] eqn:E.
      * destruct Hx as [<-|[]]. cbn. now rewrite Hd.
      * destruct Hx as [<-|Hx]; [|apply IH; [easy|now right]]. cbn. rewrite Hd. apply IH; [easy|now left].
Qed.
Lemma pieces_no_dot xs x : In x (pieces xs) -> no_byte "." x = true.
Proof.
  unfold pieces. rewrite in_flat_map. intros (s & _ & H). now apply (split1_no "." s).
Qed.

(* one call *)
Lemma dotted_pieces s : dotted_ok s -> (forall x, In x (split1 "." s) -> (1 <= String.length x)%nat) ->
  forall x, In x (split1 "." s) -> (String.length x <= 63)%nat.
Proof.
  intros (L & _) _ x Hx.
  assert (E : forall l, In x l -> (String.length x <= String.length (join "." l))%nat).
  { clear. induction l as [|y l IH]; [easy|]. intros [->|H].
    - destruct l; [cbn; lia|]. rewrite join_cons, length_app. lia.
    - destruct l as [|z l]; [easy|]. rewrite join_cons, !length_app. specialize (IH H). lia. }
  specialize (E _ Hx). rewrite (join_split1 "." s) in E. lia.
Qed.
Lemma labels_set_spec r xs : labels_set r xs =
  if (forallb validLabel xs && forallb validLabel (pieces xs) && (List.length r + total (pieces xs) <=? fqdnMax)%nat)%bool
  then (r ++ pieces xs)%list else r.
Proof.
  unfold labels_set. destruct xs as [|x xs].
  - cbn. rewrite app_nil_r. now destruct (_ <=? _)%nat.
  - unfold processLabel. rewrite process_spec. cbn [app]. set (l := x :: xs).
    destruct (forallb validLabel l && forallb validLabel (pieces l))%bool eqn:V; cbn [andb]; [|easy].
    apply andb_true_iff in V as [_ V]. rewrite Nat.add_0_l.
    assert (N : (0 < List.length (pieces l))%nat).
    { unfold l, pieces. cbn [flat_map]. rewrite app_length. assert (H := split1_nonnil "." x). destruct (split1 "." x); [easy|cbn; lia]. }
    assert (T : (0 < total (pieces l))%nat).
    { destruct (pieces l) as [|p ps]; [cbn in N; lia|]. cbn [forallb] in V. apply andb_true_iff in V as [V _].
      apply validLabel_iff in V as [V _]. unfold total. cbn. lia. }
    replace (0 <? total (pieces l))%nat with true by (symmetry; now apply Nat.ltb_lt).
    replace (0 <? List.length (pieces l))%nat with true by (symmetry; now apply Nat.ltb_lt). cbn [andb].
    reflexivity.
Qed.
Lemma fqdn_len_sq l : fqdn_len (Some l) = (List.length l * List.length l)%nat.
Proof.
  cbn [fqdn_len].
  assert (E : forall (k : list string) c, fold_left (fun c' _ => S c') k c = (c + List.length k)%nat).
  { induction k as [|x k IH]; intros c; cbn; [lia|]. rewrite IH. lia. }
  assert (E2 : forall (k : list string) c, fold_left (fun c _ => fold_left (fun c' _ => S c') l c) k c = (c + List.length k * List.length l)%nat).
  { induction k as [|x k IH]; intros c; cbn [fold_left List.length]; [lia|]. rewrite IH, E. lia. }
  rewrite E2. lia.
Qed.
Lemma fqdn_valid_iff l : fqdn_valid (Some l) = true <-> (2 <= List.length l <= 15)%nat.
Proof.
  unfold fqdn_valid, fqdnMax. rewrite fqdn_len_sq. set (n := List.length l).
  rewrite negb_true_iff, orb_false_iff, negb_false_iff, andb_true_iff, Nat.ltb_lt, Nat.leb_le, Nat.ltb_ge. nia.
Qed.

Lemma chars_app a b : chars (a ++ b) = (chars a ++ chars b)%list.
Proof. induction a as [|c a IH]; cbn; [easy|now rewrite IH]. Qed.
Lemma join_dotted sp : sp <> [] -> (forall p, In p sp -> label_ok p) ->
  (1 <= String.length (join "." sp))%nat /\
  (forall c, In c (chars (join "." sp)) -> piece_byte c = true \/ c = "."%char) /\
  (forall r, join "." sp <> String "-" r) /\ (forall r, join "." sp <> r ++ "-").
Proof.
  induction sp as [|p [|q sp] IH]; intros NE P; [easy| |].
  - cbn [join]. destruct (proj1 (label_ok_iff p) (P p (or_introl eq_refl))) as [(L & C & F) _]. split; [lia|]. easy.
  - destruct (proj1 (label_ok_iff p) (P p (or_introl eq_refl))) as [(L & C & F1 & F2) _].
    destruct IH as (L' & C' & G1 & G2); [easy|intros; apply P; now right|].
    rewrite join_cons. split; [rewrite length_app; lia|]. split; [|split].
    + intros c. rewrite chars_app, in_app_iff. intros [H|H]; [now apply C|].
      cbn [append chars In] in H. destruct H as [<-|H]; [now right|now apply C'].
    + intros r E. destruct p as [|d p]; [cbn in L; lia|]. cbn in E. injection E as E1 E2. subst d. now apply (F1 p).
    + intros r E. destruct (join "." (q :: sp)) as [|d j] eqn:Ej; [cbn in L'; lia|].
      assert (X : last_byte (p ++ String "." (String d j)) = Some "-"%char) by (apply last_split; exists r; exact E).
      rewrite last_byte_app2 in X. change (last_byte (String d j) = Some "-"%char) in X.
      apply last_split in X as [r' X]. now apply (G2 r').
Qed.

Lemma call_bool r xs :
  (forallb validLabel xs && forallb validLabel (pieces xs) && (List.length r + total (pieces xs) <=? fqdnMax)%nat)%bool = true <-> call_ok r xs.
Proof.
  unfold call_ok. fold (pieces xs). rewrite !andb_true_iff, !forallb_forall, Nat.leb_le. split.
  - intros [[A B] C]. split; [|split; [|exact C]].
    + intros x Hx. now apply A, validLabel_iff in Hx as [? _].
    + intros x Hx. apply label_ok_iff. split; [now apply validLabel_iff, B|now apply (pieces_no_dot xs)].
  - intros (A & B & C). split; [split|exact C].
    + intros x Hx. apply validLabel_iff.
      assert (P : forall p, In p (split1 "." x) -> label_ok p) by (intros p Hp; apply B; unfold pieces; apply in_flat_map; now exists x).
      specialize (A x Hx). rewrite <- (join_split1 "." x) in A |- *.
      destruct (join_dotted (split1 "." x) (split1_nonnil "." x) P) as (L & J). split; [lia|exact J].
    + intros x Hx. apply validLabel_iff. now apply B, label_ok_iff in Hx as [? _].
Qed.
