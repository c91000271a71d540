(* Model of permission-bind rules (/repo/pb.go), instructions (/repo/ins.go) and
   of the functions of /repo/parse.go that assemble them from what the grammar
   parser returns.  Definitions only.

   The grammar parser (package parser, go-antlraci) is not modelled: it enters as
   arbitrary functions from texts to its result types.  go-stackage enters as in
   MLists.v.  A rule or list handed over to another one is copied; that they are
   pointers in the code is not modelled. *)
From Coq Require Import String Ascii List PeanoNat NArith ZArith Bool.
From Verif Require Import GoStr Shifty MMisc MLists MKw MRights MRule MConv MTree.
Import ListNotations.
Open Scope string_scope.

(* ---------------- what comes from outside ---------------- *)
(* parser.PermissionBindRule: P and B (parse.go:899-906) *)
Record apbr := MkAPBR { ap_p : antlr_permission; ap_b : ptree }.
(* parser.Instruction: L, T and PB (parse.go:998-1009).  A member of PB that is
   not a parser.PermissionBindRule is None. *)
Record ains := MkAI { ai_label : string; ai_trs : list rule; ai_pbrs : list (option apbr) }.
Record world := MkWorld {
  w_env : env;                 (* MConv.v *)
  w_topnot : bool;             (* MTree.v, Render *)
  w_notsep : string;
  w_zero : string;             (* text of an uninitialised stack *)
  w_pad : bool;                (* StackPadding, misc.go:77 *)
  w_stop : bool;               (* MLists.v, push_many *)
  w_br : string -> option rule;              (* parser.ParseBindRule *)
  w_tr : string -> option rule;              (* parser.ParseTargetRule *)
  w_trs : string -> option (string * list rule); (* parser.ParseTargetRules: its text, its members *)
  w_pbr : string -> option apbr;             (* parser.ParsePermissionBindRule *)
  w_pbrs : string -> option (list (option apbr)); (* parser.ParsePermissionBindRules *)
  w_ins : string -> option ains              (* parser.ParseInstruction *)
}.

(* result of a function that may panic or return an error *)
Inductive out (A : Type) := Panics | Fails | Gives (a : A).
Arguments Panics {A}.
Arguments Fails {A}.
Arguments Gives {A} a.

(* ---------------- permission-bind rules ---------------- *)
(* bind.go:1073-1120 BindContext: a BindRule or a BindRules instance; None is the
   zero BindRules *)
Inductive bctx := BCRule (r : rule) | BCStack (t : option tree).
(* bind.go:310-318, 1025-1028 Valid; go-stackage reports an initialised stack valid *)
Definition bctx_valid (b : bctx) : bool :=
  match b with
  | BCRule r => br_valid r
  | BCStack (Some (Stk _ _ _ _ _)) => true
  | BCStack _ => false
  end.
Definition bctx_string (W : world) (b : bctx) : string :=
  match b with
  | BCRule r => br_string r
  | BCStack (Some t) => brs_string (w_topnot W) (w_notsep W) t
  | BCStack None => w_zero W
  end.

(* pb.go:26-33; B None is the nil interface *)
Record pbrec := MkPB { pb_p : permission; pb_b : option bctx }.
Definition pbr := option pbrec.
Definition badPB : string := "<invalid_pbrule>".
(* pb.go:75-82 IsZero *)
Definition pbr_isZero (r : pbr) : bool :=
  match r with
  | None => true
  | Some x => perm_is_zero (pb_p x) && match pb_b x with None => true | Some _ => false end
  end.
(* pb.go:135-150 valid *)
Definition pbr_valid (r : pbr) : bool :=
  if pbr_isZero r then false
  else match r with
       | Some x => perm_valid (pb_p x) && match pb_b x with Some _ => true | None => false end
       | None => false
       end.
(* pb.go:169-178 string *)
Definition pbr_string (W : world) (r : pbr) : string :=
  if pbr_valid r then
    match r with
    | Some (MkPB p (Some b)) => perm_string (e_shifty (w_env W)) p ++ " " ++ bctx_string W b ++ ";"
    | _ => badPB
    end
  else badPB.
(* pb.go:49-59 PBR *)
Definition PBR (p : permission) (b : option bctx) : pbr :=
  if pbr_valid (Some (MkPB p b)) then Some (MkPB p b) else None.

(* parse.go:899-920 processPermissionBindRule *)
Definition processPBR (W : world) (a : apbr) : out pbr :=
  match unpackageAntlrPermission (e_shifty (w_env W)) (ap_p a) with
  | None => Fails
  | Some p =>
      match convert (w_env W) (w_pad W) (w_notsep W) (w_zero W) (ap_b a) with
      | CPanic => Panics
      | CFail => Fails
      | CZero => Gives (Some (MkPB p (Some (BCStack None))))
      | COk t => Gives (Some (MkPB p (Some (BCStack (Some t)))))
      end
  end.
(* parse.go:890-897 parsePermissionBindRule *)
Definition parsePBR (W : world) (raw : string) : out pbr :=
  match w_pbr W raw with None => Fails | Some a => processPBR W a end.

(* pb.go:98-123 set: the loop; None is a panic.  A refused argument ends it. *)
Inductive pbarg := PAStr (s : string) | PAPerm (p : permission) | PABind (b : bctx) | PAOther.
Fixpoint pbrec_set (W : world) (r : pbrec) (xs : list pbarg) : option pbrec :=
  match xs with
  | [] => Some r
  | PAStr s :: t =>
      match parsePBR W s with
      | Panics => None
      | Gives (Some x) => pbrec_set W x t
      | _ => Some r
      end
  | PAPerm p :: t => if perm_valid p then pbrec_set W (MkPB p (pb_b r)) t else Some r
  | PABind b :: t => if bctx_valid b then pbrec_set W (MkPB (pb_p r) (Some b)) t else Some r
  | PAOther :: t => pbrec_set W r t
  end.
(* pb.go:87-93 Set *)
Definition pbr_set (W : world) (r : pbr) (xs : list pbarg) : option pbr :=
  let r' := if pbr_isZero r then MkPB PNil None
            else match r with Some x => x | None => MkPB PNil None end in
  match pbrec_set W r' xs with Some x => Some (Some x) | None => None end.
Fixpoint pbr_sets (W : world) (r : pbr) (h : list (list pbarg)) : option pbr :=
  match h with
  | [] => Some r
  | xs :: t => match pbr_set W r xs with Some r' => pbr_sets W r' t | None => None end
  end.

(* ---------------- lists of permission-bind rules ---------------- *)
(* pb.go:316-339 contains, for a PermissionBindRule *)
Definition pbrs_contains (W : world) (l : list pbr) (x : pbr) : bool :=
  existsb (fun y => e_eqf (w_env W) (pbr_string W y) (pbr_string W x)) l.
(* pb.go:278-302 pushPolicy, for a PermissionBindRule; other types are refused *)
Definition pbrs_policy (W : world) (l : list pbr) (x : pbr) : bool :=
  if pbrs_contains W l x then false else pbr_valid x.
Inductive plarg := PLStr (s : string) | PLRule (r : pbr) | PLOther.
Definition pbrs_push1 (W : world) (l : list pbr) (x : plarg) : list pbr :=
  match x with PLRule r => push1 (pbrs_policy W) l r | _ => l end.
(* pb.go:240-259 Push: a text that does not parse ends the call; None is a panic *)
Fixpoint pbrs_push (W : world) (l : list pbr) (xs : list plarg) : option (list pbr) :=
  match xs with
  | [] => Some l
  | PLStr s :: t =>
      match parsePBR W s with
      | Panics => None
      | Fails => Some l
      | Gives r => pbrs_push W (pbrs_push1 W l (PLRule r)) t
      end
  | x :: t => pbrs_push W (pbrs_push1 W l x) t
  end.
(* pb.go:346-375 PBRs: the arguments go to the stack directly, so texts are refused.
   Simplified: when the list is not empty, contains (pb.go:323-326) parses a text
   before it is refused, which can panic like parsePBR; MPbs.v has that panic. *)
Definition PBRs (W : world) (xs : list plarg) : list pbr := push_many (w_stop W) (pbrs_push1 W) [] xs.
(* pb.go:266-273 Pop *)
Inductive plcall := PLPush (xs : list plarg) | PLPop.
Definition pbrs_step (W : world) (l : list pbr) (c : plcall) : option (list pbr) :=
  match c with PLPush xs => pbrs_push W l xs | PLPop => Some (pop l) end.
Fixpoint pbrs_run (W : world) (l : list pbr) (h : list plcall) : option (list pbr) :=
  match h with
  | [] => Some l
  | c :: t => match pbrs_step W l c with Some l' => pbrs_run W l' t | None => None end
  end.
(* pb.go:226-228 String: the delimiter is a blank *)
Definition pbrs_string (W : world) (l : list pbr) : string := join " " (map (pbr_string W) l).

(* parse.go:922-937 processPermissionBindRules: the list and whether there was no
   error; None is a panic *)
Fixpoint processPBRs (W : world) (l : list pbr) (xs : list (option apbr)) : option (list pbr * bool) :=
  match xs with
  | [] => Some (l, true)
  | None :: t => processPBRs W l t
  | Some a :: t =>
      match processPBR W a with
      | Panics => None
      | Fails => Some (l, false)
      | Gives r => processPBRs W (pbrs_push1 W l (PLRule r)) t
      end
  end.
(* parse.go:959-971 PermissionBindRules.Parse *)
Definition parsePBRs (W : world) (raw : string) : out (list pbr) :=
  match w_pbrs W raw with
  | None => Fails
  | Some xs => match processPBRs W [] xs with
               | None => Panics
               | Some (l, true) => Gives l
               | Some (_, false) => Fails
               end
  end.

(* ---------------- parsing of single rules and of target rules ---------------- *)
(* parse.go:35-38 parseBindRule: the value is not converted *)
Definition parseBindRule (W : world) (raw : string) : out rule :=
  match w_br W raw with None => Fails | Some r => Gives r end.
(* parse.go:404-409 parseTargetRule: the error of the conversion is dropped.
   Simplified: when the parser gives an error, the conversion of the rule it returned
   with it is left out. *)
Definition parseTargetRule (W : world) (raw : string) : out rule :=
  match w_tr W raw with
  | None => Fails
  | Some r => match tr_assert (w_env W) r with
              | RPanic => Panics
              | RErr => Gives r
              | ROk r' => Gives r'
              end
  end.
(* parse.go:490-510 the second loop: convert until the first error *)
Fixpoint assert_all (en : env) (l : list rule) : option (list rule * bool) :=
  match l with
  | [] => Some ([], true)
  | r :: t =>
      match tr_assert en r with
      | RPanic => None
      | RErr => Some (r :: t, false)
      | ROk r' => match assert_all en t with
                  | None => None
                  | Some (t', ok) => Some (r' :: t', ok)
                  end
      end
  end.
(* parse.go:472-513 processTargetRules; 485-488 the first loop *)
Definition collect_trs (rs : list rule) : list rule := fold_left (fun l r => trs_push1 l (TRule r)) rs [].
Definition processTRs (W : world) (rs : list rule) : option (list rule * bool) :=
  assert_all (w_env W) (collect_trs rs).
(* parse.go:451-470 parseTargetRules *)
Definition parseTargetRules (W : world) (raw : string) : out (list rule) :=
  match w_trs W (condenseWHSP raw) with
  | None => Fails
  | Some (text, rs) =>
      if String.eqb text "" then Fails
      else match processTRs W rs with
           | None => Panics
           | Some (l, true) => Gives l
           | Some (_, false) => Fails
           end
  end.

(* ---------------- instructions ---------------- *)
(* ins.go:17-19, 68-72 *)
Record instr := MkIns { i_label : string; i_trs : list rule; i_pbrs : list pbr }.
Definition instruction := option instr.
Definition badACI : string := "<invalid_aci>".
(* ins.go:271-287 Valid, IsZero *)
Definition ins_valid (i : instruction) : bool := match i with Some _ => true | None => false end.
(* ins.go:10, 389-391 version *)
Definition version : string := "version 3.0".
(* ins.go:160-170 String *)
Definition ins_string (W : world) (i : instruction) : string :=
  match i with
  | None => badACI
  | Some a => trs_string false (i_trs a) ++ "(" ++ version ++ "; acl " ++ dq ++ i_label a ++ dq ++ "; "
              ++ pbrs_string W (i_pbrs a) ++ ")"
  end.
(* ins.go:363-369 setLabel *)
Definition setLabel (a : instr) (x : string) : instr :=
  if ((0 <? String.length x)%nat && (String.length (i_label a) =? 0)%nat)%bool
  then MkIns x (i_trs a) (i_pbrs a) else a.
(* ins.go:371-378 targetPush *)
Definition targetPush1 (l : list rule) (r : rule) : list rule :=
  if negb (matchTKW (tr_kwname r) =? 0)%N then trs_push1 l (TRule r) else l.
(* ins.go:348-361 assertInstruction, 380-384 permissionBindRulesPush *)
Inductive iarg := IStr (s : string) | ITRs (l : list rule) | ITR (r : rule)
                | IPBR (r : pbr) | IPBRs (l : list pbr) | IOther.
Definition assertInstruction (W : world) (a : instr) (x : iarg) : instr :=
  match x with
  | IStr s => setLabel a s
  | ITRs l => MkIns (i_label a) (fold_left targetPush1 l (i_trs a)) (i_pbrs a)
  | ITR r => MkIns (i_label a) (trs_push1 (i_trs a) (TRule r)) (i_pbrs a)
  | IPBR r => MkIns (i_label a) (i_trs a) (pbrs_push1 W (i_pbrs a) (PLRule r))
  | IPBRs l => MkIns (i_label a) (i_trs a) (fold_left (fun l r => pbrs_push1 W l (PLRule r)) l (i_pbrs a))
  | IOther => a
  end.
(* ins.go:312-321 newACI, 342-346 set *)
Definition instr_new : instr := MkIns "" [] [].
Definition instr_set (W : world) (a : instr) (xs : list iarg) : instr := fold_left (assertInstruction W) xs a.
(* ins.go:303-305 ACI, 331-337 Set *)
Definition ACI (W : world) (xs : list iarg) : instruction := Some (instr_set W instr_new xs).
Definition ins_set (W : world) (i : instruction) (xs : list iarg) : instruction :=
  Some (instr_set W (match i with Some a => a | None => instr_new end) xs).
(* parse.go:982-1026 Instruction.Parse: the errors of the parts are dropped *)
Definition parseInstruction (W : world) (raw : string) : out instruction :=
  match w_ins W (condenseWHSP raw) with
  | None => Fails
  | Some x =>
      match processTRs W (ai_trs x), processPBRs W [] (ai_pbrs x) with
      | Some (t, _), Some (p, _) =>
          let i := ins_set W None [ITRs t; IStr (ai_label x); IPBRs p] in
          if ins_valid i then Gives i else Fails
      | _, _ => Panics
      end
  end.

(* a caller's history on an instruction: Set, Parse, and the lists reached through
   TRs() (ins.go:240-246) and PBRs() (251-256).  None is a panic. *)
Inductive icall := ICSet (xs : list iarg) | ICTRs (c : trscall) | ICPBRs (c : plcall) | ICParse (raw : string).
Definition ins_step (W : world) (i : instruction) (c : icall) : option instruction :=
  match c with
  | ICSet xs => Some (ins_set W i xs)
  | ICTRs c => match i with
               | None => Some None
               | Some a => Some (Some (MkIns (i_label a) (trs_step (w_stop W) (i_trs a) c) (i_pbrs a)))
               end
  | ICPBRs c => match i with
                | None => Some None
                | Some a => match pbrs_step W (i_pbrs a) c with
                            | None => None
                            | Some l => Some (Some (MkIns (i_label a) (i_trs a) l))
                            end
                end
  | ICParse raw => match parseInstruction W raw with
                   | Panics => None
                   | Fails => Some i
                   | Gives i' => Some i'
                   end
  end.
Fixpoint ins_run (W : world) (i : instruction) (h : list icall) : option instruction :=
  match h with
  | [] => Some i
  | c :: t => match ins_step W i c with Some i' => ins_run W i' t | None => None end
  end.

(* ---------------- lists of instructions ---------------- *)
(* ins.go:116-139 contains, for the text of the candidate *)
Definition inss_contains (W : world) (l : list instruction) (candidate : string) : bool :=
  existsb (fun y => e_eqf (w_env W) (ins_string W y) (condenseWHSP candidate)) l.
(* ins.go:82-95 pushPolicy, for an Instruction; other types are refused *)
Definition inss_policy (W : world) (l : list instruction) (x : instruction) : bool :=
  if inss_contains W l (ins_string W x) then false else ins_valid x.
Inductive jarg := JStr (s : string) | JIns (i : instruction) | JOther.
(* ins.go:177-194 Push; None is a panic *)
Fixpoint inss_push (W : world) (l : list instruction) (xs : list jarg) : option (list instruction) :=
  match xs with
  | [] => Some l
  | JStr s :: t =>
      match parseInstruction W s with
      | Panics => None
      | Fails => inss_push W l t
      | Gives i => inss_push W (push1 (inss_policy W) l i) t
      end
  | JIns i :: t => inss_push W (push1 (inss_policy W) l i) t
  | JOther :: t => inss_push W l t
  end.
(* ins.go:26-53 ACIs, 199-206 Pop *)
Definition ACIs (W : world) (xs : list jarg) : option (list instruction) := inss_push W [] xs.
Inductive jcall := JPush (xs : list jarg) | JPop.
Fixpoint inss_run (W : world) (l : list instruction) (h : list jcall) : option (list instruction) :=
  match h with
  | [] => Some l
  | JPush xs :: t => match inss_push W l xs with Some l' => inss_run W l' t | None => None end
  | JPop :: t => inss_run W (pop l) t
  end.
(* ins.go:153-155 String: the delimiter is a newline *)
Definition newline : string := String "010" EmptyString.
Definition inss_string (W : world) (l : list instruction) : string := join newline (map (ins_string W) l).
