(* Model of /repo/filter.go (search filters, attribute filters and the add=/delete=
   operations) and of its readers in /repo/parse.go.  Definitions only.  The stack
   library enters as in MLists.v: a list, and one-item pushes under a policy. *)
From Coq Require Import String Ascii List PeanoNat NArith Bool.
From Verif Require Import GoStr MMisc MKw MAttr MLists.
Import ListNotations.
Open Scope string_scope.

(* filter.go:18-27 SearchFilter: nil pointer or a text *)
Definition sfilter := option string.
(* filter.go:32-37 IsZero *)
Definition sf_isZero (f : sfilter) : bool :=
  match f with None => true | Some s => (String.length s =? 0)%nat end.
(* filter.go:119-125 String *)
Definition sf_string (f : sfilter) : string := match f with None => "" | Some s => s end.
(* filter.go:152-157 set, 140-147 Set, 88-94 Filter *)
Definition sf_set (f : sfilter) (x : string) : sfilter :=
  let cur := match f with None => "" | Some s => s end in
  Some (if (String.length x =? 0)%nat then cur else x).
Definition Filter (x : list string) : sfilter :=
  match x with [] => Some "" | s :: _ => sf_set (Some "") s end.

(* filter.go:186-196 AttributeFilter: nil pointer or attribute and filter *)
Definition atf : Type := attype * sfilter.
Definition afilter := option atf.
(* filter.go:333-339 IsZero *)
Definition af_isZero (r : afilter) : bool :=
  match r with None => true | Some (a, f) => sf_isZero f && at_isZero a end.
(* filter.go:316-328 Valid: no error *)
Definition af_valid (r : afilter) : bool :=
  match r with
  | None => false
  | Some (a, f) => if af_isZero r then false
                   else if sf_isZero f then false
                   else negb (at_isZero a)
  end.
(* filter.go:298-304 String *)
Definition af_string (r : afilter) : string :=
  match r with
  | Some (a, f) => if af_valid r then at_string a ++ ":" ++ sf_string f else ""
  | None => ""
  end.
Inductive farg := FStr (s : string) | FAT (a : attype) | FSF (f : sfilter) | FOther.
(* filter.go:278-293 atf.set: one loop step, the loop *)
Definition atf_set1 (r : atf) (x : farg) : atf :=
  match x with
  | FStr s => if isIdentifier s then (AT s, snd r) else (fst r, Filter [s])
  | FAT a => (a, snd r)
  | FSF f => (fst r, f)
  | FOther => r
  end.
Definition atf_set (r : atf) (x : list farg) : atf := fold_left atf_set1 x r.
(* filter.go:219-230 AF *)
Definition AF (x : list farg) : afilter := Some (atf_set (None, None) x).
(* filter.go:237-244 Set *)
Definition af_set (r : afilter) (x : list farg) : afilter :=
  let cur := if af_isZero r then (None, None) else match r with Some p => p | None => (None, None) end in
  Some (atf_set cur x).

(* filter.go:208-212 AttributeOperation constants, 344-349 String *)
Definition noAOp : N := 0.
Definition AddOp : N := 1.
Definition DelOp : N := 2.
Definition aop_string (r : N) : string := if (r =? DelOp)%N then "delete" else "add".
(* filter.go:942-965 makeLabel then Operation: the operation read from the
   category that was set by r.makeLabel() *)
Definition aop_label (r : N) : N := if (r =? DelOp)%N then DelOp else AddOp.

(* filter.go:1099-1117 parseAttributeFilter; None: error *)
Definition parseAttributeFilter (raw : string) : option afilter :=
  match idx ":" raw with
  | None => None
  | Some i =>
      let a := AT (stake i raw) in
      if at_isZero a then None
      else let f := Filter [sdrop (i + 1) raw] in
           Some (af_set None [FAT a; FSF f])
  end.
(* parse.go:1114-1126 AttributeFilter.Parse: None error, otherwise the new receiver *)
Definition af_parse (raw : string) : option afilter :=
  let raw' := unquote (condenseWHSP raw) in
  if (String.length raw' <? 5)%nat then None else parseAttributeFilter raw'.

(* An initialised AttributeFilterOperation: the operation its category stands for
   (noAOp for the bare category of AFO()) and its members.  Simplification: the
   nil stack is left out; AFO, AttributeOperation.AFO and the parser always
   initialise. *)
Record afo := MkAFO { afo_op : N; afo_mem : list afilter }.
(* filter.go:787-811 contains, for an AttributeFilter *)
Definition afo_contains (l : list afilter) (x : afilter) : bool :=
  existsb (fun y => String.eqb (af_string y) (af_string x)) l.
(* filter.go:652-680 pushPolicy, for an AttributeFilter *)
Definition afo_policy (l : list afilter) (x : afilter) : bool :=
  if afo_contains l x then false else af_valid x.
Inductive aoarg := AOStr (s : string) | AOOp (n : N) | AOFilter (f : afilter) | AOOther.
(* filter.go:692-723 Push: one loop step, the loop *)
Definition afo_push1 (r : afo) (x : aoarg) : afo :=
  match x with
  | AOStr s => match parseAttributeFilter s with
               | Some f => MkAFO (afo_op r) (push1 afo_policy (afo_mem r) f)
               | None => r
               end
  | AOOp n => MkAFO (aop_label n) (afo_mem r)
  | AOFilter f => MkAFO (afo_op r) (push1 afo_policy (afo_mem r) f)
  | AOOther => r
  end.
Definition afo_push (r : afo) (x : list aoarg) : afo := fold_left afo_push1 x r.
(* filter.go:909-937 AFO and AttributeOperation.AFO *)
Definition AFO (x : list aoarg) : afo := afo_push (MkAFO noAOp []) x.
Definition aop_AFO (r : N) (x : list aoarg) : afo := afo_push (MkAFO (aop_label r) []) x.
(* filter.go:728-735 Pop *)
Definition afo_pop (r : afo) : afo := MkAFO (afo_op r) (pop (afo_mem r)).
(* filter.go:845-854 String; padded && stack as in the project's tests *)
Definition afo_string (r : afo) : string :=
  aop_string (afo_op r) ++ "=" ++ join " && " (map af_string (afo_mem r)).

(* filter.go:970-980 hasAttributeFilterOperationPrefix *)
Definition hasAFOPrefix (raw : string) : bool := has_prefix "add=" raw || has_prefix "delete=" raw.
(* filter.go:1122-1138 parseAttrFilterOperPreamble *)
Definition parsePreamble (raw : string) : option (N * string) :=
  if has_prefix "add=" raw then Some (AddOp, sdrop 4 raw)
  else if has_prefix "delete=" raw then Some (DelOp, sdrop 7 raw)
  else None.
(* filter.go:1085-1090: the loop over the items; None: error *)
Fixpoint parse_items (seq : list string) (r : afo) : option afo :=
  match seq with
  | [] => Some r
  | x :: t => match parseAttributeFilter (trim_space x) with
              | None => None
              | Some f => parse_items t (afo_push r [AOFilter f])
              end
  end.
(* filter.go:1067-1094 parseAttributeFilterOperation; None: error.  parse.go:
   1102-1109 AttributeFilterOperation.Parse returns the same. *)
Definition parseAFO (raw : string) : option afo :=
  let raw' := unquote (condenseWHSP raw) in
  if (String.length raw' <? 5)%nat then None
  else match parsePreamble raw' with
       | None => None
       | Some (aop, val) => parse_items (split2 "&" "&" (trim_space val)) (aop_AFO aop [])
       end.

(* AttributeFilterOperations: delimiter (44 or 59) and members *)
Record afos := MkAFOs { afos_delim : ascii; afos_mem : list afo }.
(* filter.go:431-455 contains, 621-647 pushPolicy, for an AttributeFilterOperation *)
Definition afos_contains (l : list afo) (x : afo) : bool :=
  existsb (fun y => String.eqb (afo_string y) (afo_string x)) l.
Definition afos_policy (l : list afo) (x : afo) : bool :=
  if afos_contains l x then false else (0 <? List.length (afo_mem x))%nat.
Inductive asarg := ASStr (s : string) | ASOp (o : afo) | ASOther.
(* filter.go:502-522 Push: one loop step, the loop *)
Definition afos_push1 (r : afos) (x : asarg) : afos :=
  match x with
  | ASStr s => match parseAFO s with
               | Some o => if (0 <? List.length (afo_mem o))%nat
                           then MkAFOs (afos_delim r) (push1 afos_policy (afos_mem r) o) else r
               | None => r
               end
  | ASOp o => MkAFOs (afos_delim r) (push1 afos_policy (afos_mem r) o)
  | ASOther => r
  end.
Definition afos_push (r : afos) (x : list asarg) : afos := fold_left afos_push1 x r.
(* filter.go:360-390 AFOs with no argument.  With arguments it pushes on the stack
   directly; the package itself passes at most one operation. *)
Definition AFOs0 : afos := MkAFOs "," [].
Definition AFOs1 (o : afo) : afos := MkAFOs "," (push1 afos_policy [] o).
(* filter.go:464-497 SetDelimiter; the argument is AttributeFilterOperationsSemiDelim (1) or not *)
Definition afos_setDelimiter (r : afos) (semi : bool) : afos :=
  MkAFOs (if semi then ";" else ",") (afos_mem r).
Definition afos_pop (r : afos) : afos := MkAFOs (afos_delim r) (pop (afos_mem r)).
(* filter.go:579-581 String *)
Definition afos_string (r : afos) : string :=
  join (String (afos_delim r) "") (map afo_string (afos_mem r)).

(* filter.go:1002-1012 the number of operation words in the text *)
Definition op_count (raw : string) : nat := (scount raw "add=" + scount raw "delete=")%nat.
(* filter.go:1039-1059: the loop; None: error *)
Fixpoint parse_ops (vals : list string) (r : afos) : option afos :=
  match vals with
  | [] => Some r
  | v :: t =>
      let value := unquote (condenseWHSP v) in
      if hasAFOPrefix value then
        match parseAFO value with
        | None => None
        | Some o => parse_ops t (afos_push r [ASOp o])
        end
      else None
  end.
(* filter.go:982-992 afosDelim, 997-1062 parseAttributeFilterOperations; None: error *)
Definition parseAFOs (raw : string) (semi : bool) : option afos :=
  let char := if semi then ";"%char else ","%char in
  if (op_count raw =? 0)%nat then None
  else let vals := split1 char raw in
       if negb (op_count raw =? List.length vals)%nat then None
       else parse_ops vals AFOs0.

(* parse.go:735-773 assertTargetAttrFilters; None: error *)
Definition assertTargetAttrFilters (values : list string) : option afos :=
  match values with
  | [v] =>
      let value := unquote (condenseWHSP v) in
      if (String.length value <? 3)%nat then None
      else match idx "," value with
           | Some _ => parseAFOs v false
           | None =>
               match idx ";" value with
               | Some _ => parseAFOs value true
               | None =>
                   if hasAFOPrefix value then
                     match parseAFO value with Some o => Some (AFOs1 o) | None => None end
                   else match parseAttributeFilter value with
                        | Some f => Some (AFOs1 (aop_AFO AddOp [AOFilter f]))
                        | None => None
                        end
               end
           end
  | _ => None
  end.

(* histories *)
Inductive aocall := AOPush (x : list aoarg) | AOPop.
Definition afo_step (r : afo) (c : aocall) : afo := match c with AOPush x => afo_push r x | AOPop => afo_pop r end.
Definition afo_run (r : afo) (h : list aocall) : afo := fold_left afo_step h r.
Inductive ascall := ASPush (x : list asarg) | ASPop | ASDelim (semi : bool).
Definition afos_step (r : afos) (c : ascall) : afos :=
  match c with ASPush x => afos_push r x | ASPop => afos_pop r | ASDelim b => afos_setDelimiter r b end.
Definition afos_run (r : afos) (h : list ascall) : afos := fold_left afos_step h r.
