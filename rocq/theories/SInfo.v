(* Specification for C89-C94. *)
From Coq Require Import String Ascii List NArith ZArith Bool.
From Verif Require Import GoStr Shifty MMisc MLists MAttr MLevels MSec MTime MNet MFilter MUri MRule MKw MRights
  MConv MTree MAci MMeth MInfo.
Import ListNotations.
Open Scope string_scope.

(* ---- C89, C90: the text a value shows ---- *)
(* [shows W x s]: x is a string, or is not the zero value of its type and its String
   method gives the non-empty text s.  One line per type. *)
Section Shows.
Variable W : world.
Let sh : shifty := e_shifty (w_env W).
Definition num_shows (f : N -> string) (n : N) (s : string) : Prop := n <> 0%N /\ s = f n.
Definition ptr_shows {A} (f : option A -> string) (o : option A) (s : string) : Prop := o <> None /\ s = f o.
Definition shows_text (x : gval) (s : string) : Prop :=
  match x with
  | GStr t => False
  | GRight n => num_shows right_string n s
  | GPerm p => p <> PNil /\ s = perm_string sh p
  | GLevel n => num_shows (lvl_string levelNumbers) n s
  | GInh i => ptr_shows (inh_string sh fmt_panic) i s
  | GDay n => num_shows day_string n s
  | GDow d => ptr_shows (dow_string sh) d s
  | GTod t => ptr_shows tod_string t s
  | GAuth n => num_shows (auth_string (e_low (w_env W))) n s
  | GSsf v => ptr_shows ssf_string v s
  | GScope n => num_shows scope_string n s
  | GIP a => ptr_shows ipaddr_string a s
  | GFqdn f => ptr_shows fqdn_string f s
  | GBdn d => ptr_shows (dn_string badBDN) d s
  | GTdn d => ptr_shows (dn_string badTDN) d s
  | GBdns l => exists kw m, l = Some (kw, m) /\ s = join " || " (map (dmember_string badBDN) m)
  | GTdns l => exists kw m, l = Some (kw, m) /\ s = join " || " (map (dmember_string badTDN) m)
  | GOid o => ptr_shows oid_string o s
  | GOids l => exists kw m, l = Some (MkOL kw m) /\ s = join " || " (map omember_text m)
  | GAt a => ptr_shows at_string a s
  | GAv v => ptr_shows av_string v s
  | GAts l => exists b m, l = Some (b, m) /\ s = join (if b then " || " else ",") (map at_string m)
  | GAbtv a => a <> abtv_zero /\ abtv_string a = Some s
  | GSf f => ptr_shows sf_string f s
  | GAf f => ptr_shows af_string f s
  | GAfo o => exists v, o = Some v /\ s = afo_string v
  | GAfos o => exists v, o = Some v /\ s = afos_string v
  | GUri u => exists v, u = Some v /\ s = uri_string v
  | GBr r => ptr_shows br_string r s
  | GBrs t => exists v, t = Some v /\ s = brs_string (w_topnot W) (w_notsep W) v
  | GTr r => ptr_shows tr_string r s
  | GTrs l => exists v, l = Some v /\ s = trs_string false v
  | GPbr r => ptr_shows (pbr_string W) r s
  | GPbrs l => exists v, l = Some v /\ s = pbrs_string W v
  | GIns i => ptr_shows (ins_string W) i s
  | GInss l => exists v, l = Some v /\ s = inss_string W v
  | GCop n => num_shows cop_string n s
  | GBkw n => num_shows bkw_string n s
  | GTkw n => num_shows tkw_string n s
  | GStringer t => s = t
  | GNone => False
  end.
Definition shows (x : gval) (s : string) : Prop := x = GStr s \/ (shows_text x s /\ s <> "").
(* the String method panics: an attr#value pair with an attribute type whose value
   is the zero AttributeValue *)
Definition breaks (x : gval) : Prop :=
  exists kw a, x = GAbtv (MkABTV kw (Some (Some a, SAV None))).
End Shows.

(* a hash: 40 characters, each a digit or one of A to F *)
Definition is_hash (h : string) : Prop :=
  String.length h = 40%nat /\ forall c, In c (list_ascii_of_string h) -> In c (list_ascii_of_string "0123456789ABCDEF").

(* ---- C91 ---- *)
(* whenever a bind (target) rule is made, its keyword is the one the value names *)
Definition bind_kw_agrees (r : rule) (k : option N) : Prop := r <> None -> k = Some (br_keyword r).
Definition target_kw_agrees (r : rule) (k : option N) : Prop := r <> None -> k = Some (tr_keyword r).

(* ---- C94 ---- *)
Inductive last_decides (dotnot : string -> option string) : list oidarg -> option (option string) -> Prop :=
| LD_none : forall xs, (forall x, In x xs -> x = IAOther) -> last_decides dotnot xs None
| LD_str : forall xs s ys, (forall y, In y ys -> y = IAOther) ->
    last_decides dotnot (xs ++ IAStr s :: ys) (Some (dotnot s))
| LD_oid : forall xs kw t ys, (forall y, In y ys -> y = IAOther) -> kw <> 0%N ->
    last_decides dotnot (xs ++ IAOid (Some (MkOID kw (Some t))) :: ys) (Some (dotnot t))
| LD_bad : forall xs o ys, (forall y, In y ys -> y = IAOther) -> oid_valid o = false ->
    last_decides dotnot (xs ++ IAOid o :: ys) (Some None).
