(* Specification for C148-C150: one set of rights, days or levels, several goroutines that
   call Shift and Unshift on it. *)
From Coq Require Import String List PeanoNat NArith ZArith Bool.
From Verif Require Import GoStr MRights SRights MTime STime MLevels SAttr MWord.
Import ListNotations.

(* some call gives (takes) the right, day, level *)
Definition gives_right (cs : list perm_call) (r : right) : Prop := exists xs x, In (CShift xs) cs /\ In x xs /\ mentions x r = true.
Definition takes_right (cs : list perm_call) (r : right) : Prop := exists xs x, In (CUnshift xs) cs /\ In x xs /\ mentions x r = true.
Definition gives_day (cs : list dow_call) (d : day) : Prop := exists xs x, In (DShift xs) cs /\ In x xs /\ dmentions x d = true.
Definition takes_day (cs : list dow_call) (d : day) : Prop := exists xs x, In (DUnshift xs) cs /\ In x xs /\ dmentions x d = true.
Definition gives_level (cs : list inh_call) (n : N) : Prop := exists xs x, In (IShift xs) cs /\ In x xs /\ lmentions x n = true.
Definition takes_level (cs : list inh_call) (n : N) : Prop := exists xs x, In (IUnshift xs) cs /\ In x xs /\ lmentions x n = true.

(* all calls have returned *)
Definition done {E} (st : wstate E) : Prop := forall g, In g (workers st) -> edits g = [] /\ wat g = Idle.
(* nobody is in a call of the library *)
Definition quiet {E} (st : wstate E) : Prop := forall g, In g (workers st) -> wat g = Idle.
(* no two goroutines are in a call of the library at the same time *)
Definition in_turns {E} (lib : E -> option (N -> N)) (st : wstate E) (q : list nat) : Prop :=
  forall a b, q = (a ++ b)%list -> forall i j gi gj,
    nth_error (workers (word_run E lib st a)) i = Some gi -> wat gi <> Idle ->
    nth_error (workers (word_run E lib st a)) j = Some gj -> wat gj <> Idle -> i = j.
(* nothing is lost: a right that some goroutine gives and none takes is there, one that
   some goroutine takes and none gives is not *)
Definition nothing_lost (holds : right -> bool) (css : list (list perm_call)) : Prop :=
  forall r,
    ((exists cs, In cs css /\ gives_right cs r) -> (forall cs, In cs css -> ~ takes_right cs r) -> holds r = true) /\
    ((exists cs, In cs css /\ takes_right cs r) -> (forall cs, In cs css -> ~ gives_right cs r) -> holds r = false).
(* h is an order of the elements of the lists in which each list keeps its own order: h
   says for each element from which list it comes *)
Definition merges {E} (ess : list (list E)) (h : list (nat * E)) : Prop :=
  (forall k e, In (k, e) h -> (k < List.length ess)%nat) /\
  forall k es, nth_error ess k = Some es -> map snd (filter (fun p => Nat.eqb (fst p) k) h) = es.
(* the moments of the reads of one call of String: in order, the number first *)
Definition in_order (t0 : nat) (t : N -> nat) : Prop :=
  (forall i, t0 <= t i)%nat /\ forall i j, (i <= j)%N -> (t i <= t j)%nat.
(* the sets of rights that have a text of their own: all but proxy, all, none *)
Definition whole_set (g : right -> bool) : Prop :=
  (forall r, g r = negb (right_eqb r Proxy)) \/ (forall r, g r = true) \/ (forall r, g r = false).
(* the words that may be between the parentheses *)
Definition word_of_text (s : string) : Prop := s = "all"%string \/ s = "none"%string \/ exists r, s = right_name r.
(* the words of a text say that a right is there *)
Definition says_right (ws : list string) (r : right) : bool := existsb (fun s => text_names s r) ws.
