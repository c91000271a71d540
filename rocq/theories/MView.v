(* Model of Contains, Len, Index and the value returned by Pop of the list types,
   and of the Parse methods as updates of their receiver.  Definitions only. *)
From Coq Require Import String Ascii List PeanoNat NArith ZArith Bool.
From Verif Require Import GoStr Shifty MMisc MAttr MLists MKw MRights MFilter MUri MRule MConv MTree MAci.
Import ListNotations.
Open Scope string_scope.

(* ---------------- Contains ---------------- *)
(* An argument of Contains on a list of distinguished names: a text, a name or URI
   (as for Push), a name of the other family (bind or target), another value. *)
Inductive dcarg := DCArg (x : darg) | DCForeign (d : dn).
(* dn.go:1146-1176, 1212-1242 Contains.  [uris]: a bind list, whose second case takes
   every DistinguishedNameContext; the marker of an invalid foreign name is badTDN. *)
Definition dn_candidate (bad : string) (uris : bool) (kw : N) (x : dcarg) : string :=
  match x with
  | DCArg (DStr s) => dn_string bad (Some (newDistinguishedName s kw))
  | DCArg (DDN d) => dn_string bad d
  | DCArg (DURI t) => if uris then t else ""
  | DCArg DOther => ""
  | DCForeign d => if uris then dn_string badTDN d else ""
  end.
Definition dn_Contains (eqf : string -> string -> bool) (bad : string) (uris : bool) (kw : N)
  (l : list dmember) (x : dcarg) : bool :=
  match l with
  | [] => false
  | _ => existsb (fun y => eqf (dmember_string bad y) (dn_candidate bad uris kw x)) l
  end.
(* oid.go:348-383 Contains *)
Definition oid_Contains (eqf : string -> string -> bool) (l : list omember) (x : oarg) : bool :=
  match l with
  | [] => false
  | _ =>
      let find candidate :=
        if ((String.length candidate =? 0)%nat || String.eqb candidate badDotNot)%bool then false
        else existsb (fun y => eqf (omember_string y) candidate) l in
      match x with
      | MLists.OStr s => find s
      | OOID o => find (oid_string o)
      | _ => false
      end
  end.
(* attr.go:757-786 Contains *)
Definition at_Contains (l : list attype) (x : aarg) : bool :=
  match l with
  | [] => false
  | _ => existsb (fun y => eqfold (at_string y)
           (match x with MLists.AStr s => s | AType a => at_string a | MLists.AOther => "" end)) l
  end.
(* filter.go:778-811 AttributeFilterOperation.Contains *)
Definition afo_Contains (l : list afilter) (x : aoarg) : bool :=
  match l with
  | [] => false
  | _ => match x with
         | AOStr s => existsb (fun y => String.eqb (af_string y) s) l
         | AOFilter f => existsb (fun y => String.eqb (af_string y) (af_string f)) l
         | _ => false
         end
  end.
(* filter.go:422-455 AttributeFilterOperations.Contains *)
Definition afos_Contains (l : list afo) (x : asarg) : bool :=
  match l with
  | [] => false
  | _ => match x with
         | ASStr s => existsb (fun y => String.eqb (afo_string y) s) l
         | ASOp o => existsb (fun y => String.eqb (afo_string y) (afo_string o)) l
         | ASOther => false
         end
  end.
(* target.go:705-736 TargetRules.Contains: a text, a keyword by its text, or
   another value *)
Inductive tcarg := TCStr (s : string) | TCKw (name : string) | TCOther.
Definition trs_Contains (l : list rule) (x : tcarg) : bool :=
  match l with
  | [] => false
  | _ => existsb (fun r => eqfold (tr_kwname r)
           (match x with TCStr s => s | TCKw s => s | TCOther => "" end)) l
  end.
(* pb.go:309-339 PermissionBindRules.Contains; None is a panic *)
Definition pbrs_Contains (W : world) (l : list pbr) (x : plarg) : option bool :=
  match l with
  | [] => Some false
  | _ =>
      match match x with
            | PLStr s => match parsePBR W s with Panics => None | Fails => Some None | Gives r => Some r end
            | PLRule r => Some r
            | PLOther => Some None
            end with
      | None => None
      | Some candidate => Some (existsb (fun y => e_eqf (w_env W) (pbr_string W y) (pbr_string W candidate)) l)
      end
  end.
(* ins.go:109-139 Instructions.Contains *)
Definition inss_Contains (W : world) (l : list instruction) (x : jarg) : bool :=
  match l with
  | [] => false
  | _ => existsb (fun y => e_eqf (w_env W) (ins_string W y)
           (condenseWHSP (match x with JStr s => s | JIns i => ins_string W i | JOther => "" end))) l
  end.

(* ---------------- Len, Index, Pop ---------------- *)
(* stackage Len, and Index within the stack; what it gives for an index outside
   is left open ([outside]) *)
Definition stk_len {A} (l : list A) : nat := List.length l.
Definition stk_index {A} (outside : Z -> option A) (l : list A) (i : Z) : option A :=
  if ((0 <=? i) && (i <? Z.of_nat (List.length l)))%Z%bool then nth_error l (Z.to_nat i) else outside i.
(* the value stackage Pop returns *)
Definition stk_popped {A} (l : list A) : option A := nth_error l (List.length l - 1).
(* dn.go:1311-1334 Pop: a member that is not a name is lost; None stands for
   badBindDN and badTargetDN, which hold no text *)
Definition dn_popped (l : list dmember) : dn :=
  match stk_popped l with Some (MDN d) => d | _ => None end.
(* dn.go:993-1021 Index *)
Definition dn_Index (outside : Z -> option dmember) (l : list dmember) (i : Z) : dmember :=
  match stk_index outside l i with Some m => m | None => MDN None end.
(* oid.go:388-395 Pop, 287-293 Index *)
Definition oid_popped (l : list omember) : option oid :=
  match stk_popped l with Some (OOid o) => o | _ => None end.
Definition oid_Index (outside : Z -> option omember) (l : list omember) (i : Z) : option oid :=
  match stk_index outside l i with Some (OOid o) => o | _ => None end.
(* attr.go:699-706 Pop, 634-641 Index *)
Definition at_popped (l : list attype) : attype := match stk_popped l with Some a => a | None => None end.
Definition at_Index (outside : Z -> option attype) (l : list attype) (i : Z) : attype :=
  match stk_index outside l i with Some a => a | None => None end.
(* filter.go:728-735 Pop, 763-769 Index *)
Definition afo_popped (l : list afilter) : afilter := match stk_popped l with Some f => f | None => None end.
Definition afo_Index (outside : Z -> option afilter) (l : list afilter) (i : Z) : afilter :=
  match stk_index outside l i with Some f => f | None => None end.
(* filter.go:527-534 Pop, 546-553 Index; None is the zero AttributeFilterOperation *)
Definition afos_popped (l : list afo) : option afo := stk_popped l.
Definition afos_Index (outside : Z -> option afo) (l : list afo) (i : Z) : option afo := stk_index outside l i.
(* target.go:608-612 Pop, 625-629 Index *)
Definition trs_popped (l : list rule) : rule := match stk_popped l with Some r => r | None => None end.
Definition trs_Index (outside : Z -> option rule) (l : list rule) (i : Z) : rule :=
  match stk_index outside l i with Some r => r | None => None end.
(* pb.go:266-273 Pop, 212-219 Index *)
Definition pbrs_popped (l : list pbr) : pbr := match stk_popped l with Some r => r | None => None end.
Definition pbrs_Index (outside : Z -> option pbr) (l : list pbr) (i : Z) : pbr :=
  match stk_index outside l i with Some r => r | None => None end.
(* ins.go:199-206 Pop, 228-235 Index *)
Definition inss_popped (l : list instruction) : instruction := match stk_popped l with Some i => i | None => None end.
Definition inss_Index (outside : Z -> option instruction) (l : list instruction) (i : Z) : instruction :=
  match stk_index outside l i with Some x => x | None => None end.
(* bind.go:888-906 Pop: nil for an empty stack *)
Definition brs_popped (t : tree) : option tree :=
  match t with Stk _ _ _ _ k => stk_popped k | Leaf _ => None end.

(* ---------------- Parse ---------------- *)
(* Each gives the receiver after the call and whether it returned no error; None
   is a panic. *)
(* parse.go:25-33 *)
Definition BindRule_Parse (W : world) (r : rule) (raw : string) : option (rule * bool) :=
  match parseBindRule W raw with Panics => None | Fails => Some (r, false) | Gives x => Some (x, true) end.
(* parse.go:69-97 parseBindRules; [brs] is parser.ParseBindRules *)
Definition parseBindRules (W : world) (brs : string -> option ptree) (raw : string) : out (option tree) :=
  match brs (condenseWHSP raw) with
  | None => Fails
  | Some b => match convert (w_env W) (w_pad W) (w_notsep W) (w_zero W) b with
              | CPanic => Panics
              | CFail => Fails
              | CZero => Gives None
              | COk t => Gives (Some t)
              end
  end.
(* parse.go:52-64 *)
Definition BindRules_Parse (W : world) (brs : string -> option ptree) (r : option tree) (raw : string)
  : option (option tree * bool) :=
  match parseBindRules W brs raw with Panics => None | Fails => Some (r, false) | Gives x => Some (x, true) end.
(* parse.go:416-424 *)
Definition TargetRule_Parse (W : world) (r : rule) (raw : string) : option (rule * bool) :=
  match parseTargetRule W raw with Panics => None | Fails => Some (r, false) | Gives x => Some (x, true) end.
(* parse.go:431-439 *)
Definition TargetRules_Parse (W : world) (r : list rule) (raw : string) : option (list rule * bool) :=
  match parseTargetRules W raw with Panics => None | Fails => Some (r, false) | Gives x => Some (x, true) end.
(* parse.go:102-109, 808-815 parsePermission; [pm] is parser.ParsePermission *)
Definition parsePermission (W : world) (pm : string -> option antlr_permission) (raw : string) : out permission :=
  match pm raw with
  | None => Fails
  | Some p => match unpackageAntlrPermission (e_shifty (w_env W)) p with None => Fails | Some x => Gives x end
  end.
Definition Permission_Parse (W : world) (pm : string -> option antlr_permission) (r : permission) (raw : string)
  : option (permission * bool) :=
  match parsePermission W pm raw with Panics => None | Fails => Some (r, false) | Gives x => Some (x, true) end.
(* parse.go:944-952 *)
Definition PermissionBindRule_Parse (W : world) (r : pbr) (raw : string) : option (pbr * bool) :=
  match parsePBR W raw with Panics => None | Fails => Some (r, false) | Gives x => Some (x, true) end.
(* parse.go:959-971 *)
Definition PermissionBindRules_Parse (W : world) (r : list pbr) (raw : string) : option (list pbr * bool) :=
  match parsePBRs W raw with Panics => None | Fails => Some (r, false) | Gives x => Some (x, true) end.
(* parse.go:982-1026 *)
Definition Instruction_Parse (W : world) (r : instruction) (raw : string) : option (instruction * bool) :=
  match parseInstruction W raw with Panics => None | Fails => Some (r, false) | Gives x => Some (x, true) end.
(* parse.go:1033-1041; None is the nil LDAPURI *)
Definition LDAPURI_Parse (r : option uri) (raw : string) : option uri * bool :=
  match parseLDAPURI raw [] with None => (r, false) | Some u => (Some u, true) end.
(* parse.go:1082-1097; None is the nil stack *)
Definition AFOs_Parse (r : option afos) (raw : string) (semi : bool) : option afos * bool :=
  match parseAFOs raw semi with None => (r, false) | Some x => (Some x, true) end.
(* parse.go:1102-1109; None is the nil stack *)
Definition AFO_Parse (r : option afo) (raw : string) : option afo * bool :=
  match parseAFO raw with None => (r, false) | Some x => (Some x, true) end.
(* parse.go:1114-1126 *)
Definition AF_Parse (r : afilter) (raw : string) : afilter * bool :=
  match af_parse raw with None => (r, false) | Some x => (x, true) end.
(* attr.go:290-298 *)
Definition ABTV_Parse (r : abtv) (raw : string) (bkw : list (option N)) : abtv * bool :=
  match abtv_parse raw bkw with None => (r, false) | Some x => (x, true) end.
