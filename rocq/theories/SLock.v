(* Specification for C129-C131: what it means that a list stays read-only, and which
   statements ask to change an object. *)
From Coq Require Import List PeanoNat Bool.
From Verif Require Import MRule MTree MAci MGraph MInst MLock.
Import ListNotations.

(* P holds before the program, after every statement of it, and after it *)
Definition always {S C} (run : S -> list C -> S) (s : S) (p : list C) (P : S -> Prop) : Prop :=
  forall q r, p = (q ++ r)%list -> P (run s q).
(* Q holds of every statement of the program and the state it starts from *)
Definition each {S C} (run : S -> list C -> S) (s : S) (p : list C) (Q : S -> C -> Prop) : Prop :=
  forall q c r, p = (q ++ c :: r)%list -> Q (run s q) c.

(* ---- bind rules ---- *)
(* the statement asks to change the members, or the presentation, of the stack m; or
   a field of the rule m; the variable it goes through does not matter *)
Definition asks_members (s : bst) (c : bstmt) (m : nat) : Prop :=
  exists x, g_var (b_g s) x = Some m /\
            ((exists y, c = BDo (MGraph.GPush x y)) \/ (exists z, c = BDo (MGraph.GPop z x)) \/
             (exists y i, c = BDo (MGraph.GReplace x y i))).
Definition asks_setting (s : bst) (c : bstmt) (m : nat) : Prop :=
  exists x b, g_var (b_g s) x = Some m /\
              (c = BDo (MGraph.GParen x b) \/ c = BDo (MGraph.GFold x b) \/ c = BDo (MGraph.GNoPadding x b)).
Definition asks_rule (s : bst) (c : bstmt) (m : nat) : Prop :=
  exists x k, g_var (b_g s) x = Some m /\ c = BDo (MGraph.GCall x k).
(* ReadOnly is called on m *)
Definition asks_bit (s : bst) (c : bstmt) (m : nat) : Prop :=
  exists x st, g_var (b_g s) x = Some m /\ c = BReadOnly x st.

(* what variable x holds is read-only *)
Definition b_readonly (s : bst) (x : nat) : Prop := exists n, g_var (b_g s) x = Some n /\ b_ro s n = true.

(* ---- target rules ---- *)
Definition t_readonly (s : tst) (t : nat) : Prop := exists l, MInst.g_lv (t_g s) t = Some l /\ t_ro s l = true.
(* the statement calls a method of the rule r; calls NoPadding on the list l *)
Definition asks_trule (s : tst) (c : tstmt) (r : nat) : Prop :=
  exists x m, MInst.g_rv (t_g s) x = Some r /\ c = TDo (MInst.GCall x m).
Definition asks_spacing (s : tst) (c : tstmt) (l : nat) : Prop :=
  exists t b, MInst.g_lv (t_g s) t = Some l /\ c = TDo (MInst.GNoPad t b).
Definition asks_tbit (s : tst) (c : tstmt) (l : nat) : Prop :=
  exists t st, MInst.g_lv (t_g s) t = Some l /\ c = TReadOnly t st.
(* arguments of Instruction.Set that go to its target rules *)
Definition is_target (a : gset) : bool := match a with GTRs _ | GTR _ => true | _ => false end.
