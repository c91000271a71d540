(* Model of the value lists: distinguished names (/repo/dn.go), object
   identifiers (/repo/oid.go), attribute types (/repo/attr.go, end), and of the
   functions of /repo/parse.go that fill them.  Definitions only.

   A list is a go-stackage stack: its members in order and, where it matters,
   its category (keyword).  go-stackage is not available here; the model of a
   one-item push with a policy is: append the item if the policy returns no
   error.  The pushes below are one-item pushes
   unless [push_many] is used. *)
From Coq Require Import String Ascii List PeanoNat NArith Bool.
From Verif Require Import GoStr MMisc MKw MAttr.
Import ListNotations.
Open Scope string_scope.

Definition push1 {A} (policy : list A -> A -> bool) (l : list A) (x : A) : list A :=
  if policy l x then (l ++ [x])%list else l.
(* a push of several items at once: what go-stackage does with the items after a
   refused one is left open; [stop] says that they are dropped *)
Fixpoint push_many {A B} (stop : bool) (step : list A -> B -> list A) (l : list A) (xs : list B) : list A :=
  match xs with
  | [] => l
  | x :: r =>
      let l' := step l x in
      if (stop && (List.length l' =? List.length l)%nat)%bool then l' else push_many stop step l' r
  end.
(* stackage Pop on a LIFO stack *)
Definition pop {A} (l : list A) : list A := removelast l.

(* ---------------- distinguished names ---------------- *)
(* dn.go:23 LocalScheme.  It is a variable of the package; the model fixes its
   initial value. *)
Definition LocalScheme : string := "ldap:///".
(* dn.go:1702-1707 chopDNPfx *)
Definition chopDNPfx (x : string) : string :=
  if has_prefix LocalScheme x then sdrop (String.length LocalScheme) x else x.

(* dn.go:123-126 distinguishedName *)
Record dname := MkDN { dn_kw : N; dn_text : option string }.
(* dn.go:68-70, 97-99: the outer types hold a pointer; None is the nil pointer *)
Definition dn := option dname.
(* dn.go:387-392 isZero *)
Definition dn_isZero (d : dn) : bool :=
  match d with Some (MkDN _ (Some _)) => false | _ => true end.
(* dn.go:467-477 newDistinguishedName *)
Definition newDistinguishedName (x : string) (kw : N) : dname :=
  MkDN kw (if (String.length x =? 0)%nat then None else Some (chopDNPfx x)).
(* dn.go:415-462 UDN, RDN, GDN, TDN, TTDN, TFDN *)
Definition UDN (x : string) : dn := Some (newDistinguishedName x BindUDN).
Definition RDN (x : string) : dn := Some (newDistinguishedName x BindRDN).
Definition GDN (x : string) : dn := Some (newDistinguishedName x BindGDN).
Definition TDN (x : string) : dn := Some (newDistinguishedName x Target).
Definition TTDN (x : string) : dn := Some (newDistinguishedName x TargetTo).
Definition TFDN (x : string) : dn := Some (newDistinguishedName x TargetFrom).
Definition badBDN : string := "<invalid_bind_distinguished_name>".
Definition badTDN : string := "<invalid_target_distinguished_name>".
(* dn.go:243-249, 276-282 String; [bad] is the text of an invalid one *)
Definition dn_string (bad : string) (d : dn) : string :=
  match d with
  | Some (MkDN _ (Some s)) => LocalScheme ++ s
  | _ => bad
  end.
(* dn.go:400-406 set *)
Definition dname_set (r : dname) (x : string) (kw : N) : dname :=
  if (String.length x =? 0)%nat then r else newDistinguishedName x kw.
(* dn.go:322-346 BindDistinguishedName.Set *)
Definition bdn_set (r : dn) (x : string) (kw : list N) : dn :=
  let key := match kw with
             | k :: _ => if ((k =? BindGDN) || (k =? BindRDN))%N%bool then k else BindUDN
             | [] => BindUDN end in
  let r' := match r with
            | Some d => if dn_isZero r then newDistinguishedName x key else d
            | None => newDistinguishedName x key end in
  Some (dname_set r' x key).
(* dn.go:358-382 TargetDistinguishedName.Set *)
Definition tdn_set (r : dn) (x : string) (kw : list N) : dn :=
  let key := match kw with
             | k :: _ => if ((k =? TargetTo) || (k =? TargetFrom))%N%bool then k else Target
             | [] => Target end in
  let r' := match r with
            | Some d => if dn_isZero r then newDistinguishedName x key else d
            | None => newDistinguishedName x key end in
  Some (dname_set r' x key).

(* A member of a BindDistinguishedNames or TargetDistinguishedNames list: a DN,
   or (bind lists only) an LDAP URI, represented by the text it prints. *)
Inductive dmember := MDN (d : dn) | MURI (text : string).
Definition dmember_string (bad : string) (m : dmember) : string :=
  match m with MDN d => dn_string bad d | MURI t => t end.
(* The arguments of Push *)
Inductive darg := DStr (s : string) | DDN (d : dn) | DURI (text : string) | DOther.

Section DNList.
(* misc.go:85 eq = strings.EqualFold *)
Variable eqf : string -> string -> bool.
(* badBDN or badTDN, and whether URIs are taken *)
Variable bad : string.
Variable uris : bool.

(* dn.go:1244-1306 pushBindDistinguishedNames, pushTargetDistinguishedNames *)
Definition push_cast (kw : N) (x : darg) : option dmember :=
  match x with
  | DStr s => if (0 <? String.length s)%nat then Some (MDN (Some (newDistinguishedName s kw))) else None
  | DDN d => if (negb (dn_isZero d) && match d with Some n => dn_kw n =? kw | None => false end)%N%bool
             then Some (MDN d) else None
  | DURI t => if uris then Some (MURI t) else None
  | DOther => None
  end.
(* dn.go:1153-1176, 1219-1242 contains, for a member *)
Definition dn_contains (l : list dmember) (m : dmember) : bool :=
  existsb (fun y => eqf (dmember_string bad y) (dmember_string bad m)) l.
(* dn.go:1339-1394: the six push policies.  distinguishedNamesPushPolicy
   (1399-1426) never reports an error for a DN or URI. *)
Definition dn_policy (l : list dmember) (m : dmember) : bool := negb (dn_contains l m).
(* dn.go:1118-1139, 1183-1205 Push on an initialised list of keyword kw *)
Fixpoint dn_push (kw : N) (l : list dmember) (xs : list darg) : list dmember :=
  match xs with
  | [] => l
  | x :: r => match push_cast kw x with
              | None => l
              | Some m => dn_push kw (push1 dn_policy l m) r
              end
  end.
Inductive dcall := DPush (xs : list darg) | DPop.
Definition dn_step (kw : N) (l : list dmember) (c : dcall) : list dmember :=
  match c with DPush xs => dn_push kw l xs | DPop => pop l end.
(* a list built by UDNs/RDNs/GDNs/TDNs/TTDNs/TFDNs (dn.go:1448-1677), then used *)
Definition dn_run (kw : N) (init : list darg) (h : list dcall) : list dmember :=
  fold_left (dn_step kw) h (dn_push kw [] init).

(* dn.go:1709-1719 isDNAlias, with dn.go:1725-1728 *)
Definition isDNAlias (x : string) : bool :=
  existsb (fun a => eqf x (dn_string badBDN (UDN a))) ["all"; "anyone"; "self"; "parent"].
(* dn.go:931-933 isInvalidDNSyntax *)
Definition isInvalidDNSyntax (d : string) : bool :=
  (String.length d <? 3)%nat || negb (scontains "=" d || negb (isDNAlias d)).

(* dn.go:893-929 BindDistinguishedNames.setExpressionValues: the list after the
   call and whether it returns no error.  [parse_uri] stands for parseLDAPURI
   and gives the text of the URI. *)
Variable parse_uri : string -> option string.
Fixpoint bdn_setExpressionValues (kw : N) (l : list dmember) (values : list string) : list dmember * bool :=
  match values with
  | [] => (l, true)
  | v :: r =>
      if (has_prefix LocalScheme v && scontains "?" v)%bool then
        match parse_uri v with
        | Some t => bdn_setExpressionValues kw (dn_push kw l [DURI t]) r
        | None => (l, false)
        end
      else
        let D := chopDNPfx (condenseWHSP v) in
        if (negb (isInvalidDNSyntax D) && negb (scontains "?" D))%bool then
          bdn_setExpressionValues kw (dn_push kw l [DDN (Some (newDistinguishedName D kw))]) r
        else (l, false)
  end.
(* dn.go:938-960 TargetDistinguishedNames.setExpressionValues *)
Fixpoint tdn_setExpressionValues (kw : N) (l : list dmember) (values : list string) : list dmember * bool :=
  match values with
  | [] => (l, true)
  | v :: r =>
      let D := chopDNPfx (condenseWHSP v) in
      if isInvalidDNSyntax D then (l, false)
      else tdn_setExpressionValues kw (dn_push kw l [DDN (Some (newDistinguishedName D kw))]) r
  end.
(* parse.go:281-324 assertBindUGRDN; key is BindUDN, BindRDN or BindGDN *)
Definition assertBindUGRDN (key : N) (values : list string) : option (list dmember) :=
  match values with
  | [] => None
  | v :: _ =>
      if (String.length (unquote (condenseWHSP v)) <? 3)%nat then None
      else let (l, ok) := bdn_setExpressionValues key [] values in
           if ok then Some l else None
  end.
(* parse.go:660-694 assertTargetTFDN *)
Definition assertTargetTFDN (key : N) (values : list string) : option (list dmember) :=
  match values with
  | [] => None
  | _ => let (l, ok) := tdn_setExpressionValues key [] values in
         if ok then Some l else None
  end.
End DNList.

(* ---------------- object identifiers ---------------- *)
(* oid.go:37-47 ObjectIdentifier: nil pointer, or keyword (0: none) and dot
   notation, represented by the text it prints *)
Record oid := MkOID { oid_kw : N; oid_dot : option string }.
Definition badDotNot : string := "<invalid_object_identifier>".
(* oid.go:117-125 IsZero and oid.go:154-174 Valid *)
Definition oid_valid (o : option oid) : bool :=
  match o with
  | Some (MkOID kw (Some _)) => negb (kw =? 0)%N
  | _ => false
  end.
(* oid.go:52-57 String *)
Definition oid_string (o : option oid) : string :=
  match o with
  | Some (MkOID kw (Some t)) => if (kw =? 0)%N then badDotNot else t
  | _ => badDotNot
  end.

(* A member of the list.  A TargetKeyword passes the policy (oid.go:523-529),
   so it can become a member too. *)
Inductive omember := OOid (o : option oid) | OKw (k : N).
Inductive oarg := OStr (s : string) | OOID (o : option oid) | OKey (k : N) | OOtherArg.

Section OIDList.
Variable eqf : string -> string -> bool.
(* objectid.NewDotNotation: the text of the notation, None on error.  On error
   the pointer it returns is not relied upon. *)
Variable dotnot : string -> option string.

(* oid.go:229-236 newObjectID with one string; the error flag is the None case *)
Definition newObjectID (kw : N) (s : string) : option oid :=
  match dotnot s with Some t => Some (MkOID kw (Some t)) | None => None end.
(* oid.go:184-207 OID, Ctrl, ExtOp with one string: the error is dropped and the
   keyword stays 0 *)
Definition mkOID (kw : N) (s : string) : option oid :=
  match newObjectID kw s with Some o => Some o | None => Some (MkOID 0 None) end.

(* oid.go:287-293 Index then String, for a member *)
Definition omember_string (m : omember) : string :=
  match m with OOid o => oid_string o | OKw _ => badDotNot end.
(* what a member prints inside the list: its own String method (oid.go:52-57, kw.go) *)
Definition omember_text (m : omember) : string :=
  match m with OOid o => oid_string o | OKw k => tkw_string k end.
(* oid.go:355-383 contains *)
Definition oid_contains (l : list omember) (m : omember) : bool :=
  match l with
  | [] => false
  | _ => match m with
         | OKw _ => false
         | OOid o =>
             let candidate := oid_string o in
             if ((String.length candidate =? 0)%nat || String.eqb candidate badDotNot)%bool then false
             else existsb (fun y => eqf (omember_string y) candidate) l
         end
  end.
(* oid.go:451-468, 513-547: the push policies; kw is TargetExtOp or TargetCtrl *)
Definition oid_policy (kw : N) (l : list omember) (m : omember) : bool :=
  if oid_contains l m then false
  else match m with
       | OKw _ => true
       | OOid o => oid_valid o && match o with Some x => (oid_kw x =? kw)%N | None => false end
       end.
(* list state: category and members.  oid.go:488-508, 523-529: pushing one of the
   two keywords on an empty list changes the category and policy. *)
Record olist := MkOL { ol_kw : N; ol_mem : list omember }.
(* oid.go:316-329 Push, one item; a keyword value is tested and appended by the
   stack, after its policy may have reset the category *)
Definition oid_push1 (r : olist) (x : oarg) : olist :=
  match x with
  | OStr s => MkOL (ol_kw r) (push1 (oid_policy (ol_kw r)) (ol_mem r)
                    (OOid (mkOID (if (ol_kw r =? TargetExtOp)%N then TargetExtOp else TargetCtrl) s)))
  | OOID o => MkOL (ol_kw r) (push1 (oid_policy (ol_kw r)) (ol_mem r) (OOid o))
  | OKey k =>
      let kw' := if (((k =? TargetExtOp) || (k =? TargetCtrl))%N && (List.length (ol_mem r) =? 0)%nat)%bool
                 then k else ol_kw r in
      MkOL kw' (push1 (oid_policy (ol_kw r)) (ol_mem r) (OKw k))
  | OOtherArg => r
  end.
Definition oid_push (r : olist) (xs : list oarg) : olist := fold_left oid_push1 xs r.
Inductive ocall := OPush (xs : list oarg) | OPop.
Definition oid_step (r : olist) (c : ocall) : olist :=
  match c with OPush xs => oid_push r xs | OPop => MkOL (ol_kw r) (pop (ol_mem r)) end.
(* oid.go:554-619 ExtOps, Ctrls, then used *)
Definition oid_run (kw : N) (init : list oarg) (h : list ocall) : olist :=
  fold_left oid_step h (oid_push (MkOL kw []) init).

(* oid.go:419-444 setExpressionValues: the list after the call (error dropped by
   the caller) *)
Fixpoint oid_setExpressionValues (r : olist) (key : N) (values : list string) : olist :=
  match values with
  | [] => r
  | v :: t => match newObjectID key v with
              | None => r
              | Some o => oid_setExpressionValues (oid_push r [OOID (Some o)]) key t
              end
  end.
(* parse.go:617-647 assertTargetOID *)
Definition assertTargetOID (key : N) (values : list string) : option olist :=
  match values with
  | [] => None
  | _ =>
      let kw := if (key =? TargetExtOp)%N then TargetExtOp else TargetCtrl in
      let ex := oid_setExpressionValues (MkOL kw []) key values in
      if (List.length (ol_mem ex) =? 0)%nat then None else Some ex
  end.
End OIDList.

(* ---------------- attribute types ---------------- *)
Inductive aarg := AStr (s : string) | AType (a : attype) | AOther.
(* attr.go:764-786 contains, of a stack with members l *)
Definition at_contains (l : list attype) (a : attype) : bool :=
  match l with
  | [] => false
  | _ => existsb (fun y => eqfold (at_string y) (at_string a)) l
  end.
(* attr.go:727-750 pushPolicy with receiver members r *)
Definition at_pushPolicy (r : list attype) (a : attype) : bool :=
  if at_contains r a then false else negb (at_isZero a).
(* attr.go:795-826 TAs, UAs: the policy is the method of the zero receiver [a],
   taken before [a] is assigned, so its r is the empty stack whatever the list
   holds.  attr.go:711-722 Push; another type than AttributeType is refused. *)
Definition at_push1 (l : list attype) (x : aarg) : list attype :=
  match x with
  | AStr s => push1 (fun _ => at_pushPolicy []) l (AT s)
  | AType a => push1 (fun _ => at_pushPolicy []) l a
  | AOther => l
  end.
Definition at_push (l : list attype) (xs : list aarg) : list attype := fold_left at_push1 xs l.
Inductive acall := APush (xs : list aarg) | APop.
Definition at_step (l : list attype) (c : acall) : list attype :=
  match c with APush xs => at_push l xs | APop => pop l end.
Definition at_run (init : list aarg) (h : list acall) : list attype :=
  fold_left at_step h (at_push [] init).

(* parse.go:701-727 assertTargetAttributes.  parse.go:713 reads Values[0] in
   every round. *)
Fixpoint ta_loop (v0 : string) (vals : list string) (ex : list attype) : option (list attype) :=
  match vals with
  | [] => Some ex
  | _ :: r =>
      let value := unquote (condenseWHSP v0) in
      if (String.length value =? 0)%nat then None
      else if at_isZero (AT value) then None
      else ta_loop v0 r (at_push ex [AType (AT value)])
  end.
Definition assertTargetAttributes (vals : list string) : option (list attype) :=
  match vals with [] => None | v0 :: _ => ta_loop v0 vals [] end.
