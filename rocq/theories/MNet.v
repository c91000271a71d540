(* Model of /repo/net.go and of the network part of /repo/parse.go. Definitions only. *)
From Coq Require Import String Ascii List PeanoNat NArith Bool.
From Verif Require Import GoStr MMisc MKw.
Import ListNotations.
Open Scope string_scope.

(* net.go:162-164 isValidV4Char, net.go:153: the byte is lower-cased as a
   one-rune text and the first byte of that is tested; for a byte >= 128 that
   first byte is 0xC2 or 0xC3, which is no address character. *)
Definition isValidV4Char (c : ascii) : bool :=
  byte_between 48 57 c || Ascii.eqb c "." || Ascii.eqb c "*" || Ascii.eqb c "/".
(* net.go:181-183 isValidV6Char *)
Definition isValidV6Char (c : ascii) : bool :=
  byte_between 48 57 c || byte_between 97 102 c || Ascii.eqb c ":" || Ascii.eqb c "*" || Ascii.eqb c "/".
Definition ip_byte (f : ascii -> bool) (c : ascii) : bool :=
  if ascii_byte c then f (lower_byte c) else false.
(* net.go:147-160 isV4 *)
Definition isV4 (x : string) : bool :=
  if (String.length x <=? 1)%nat then false else all_bytes (ip_byte isValidV4Char) x.
(* net.go:166-179 isV6 *)
Definition isV6 (x : string) : bool :=
  if (String.length x <=? 1)%nat then false else all_bytes (ip_byte isValidV6Char) x.
(* net.go:143-145 isValidIP *)
Definition isValidIP (x : string) : bool := isV4 x || isV6 x.

(* net.go:226-233 ipAddrs.unique *)
Definition ip_unique (r : list string) (addr : string) : bool := negb (strInSlice addr r).
(* net.go:133-141 ipAddrs.set: one loop step, the loop *)
Definition ip_set1 (r : list string) (a : string) : list string :=
  if ((0 <? String.length a)%nat && ip_unique r a)%bool
  then if isValidIP a then r ++ [a] else r
  else r.
Definition ip_set (r : list string) (addr : list string) : list string := fold_left ip_set1 addr r.

(* net.go:10-12 IPAddr: nil pointer or list *)
Definition ipaddr := option (list string).
(* net.go:17-27 IP *)
Definition IP (addr : list string) : ipaddr := Some (ip_set [] addr).
(* net.go:124-131 Set *)
Definition ipaddr_set (r : ipaddr) (addr : list string) : ipaddr :=
  Some (ip_set (match r with None => [] | Some l => l end) addr).
(* net.go:98-103 Len *)
Definition ipaddr_len (r : ipaddr) : nat := match r with None => O | Some l => List.length l end.
(* net.go:199-209 Valid: no error *)
Definition ipaddr_valid (r : ipaddr) : bool :=
  match r with None => false | Some l => negb (List.length l =? 0)%nat end.
Definition badAddr : string := "<invalid_address_list>".
(* net.go:238-248 String *)
Definition ipaddr_string (r : ipaddr) : string :=
  match r with None => badAddr | Some l => join "," l end.

(* net.go:506-520 labelCharsOK; [i] index, [l] last index *)
Definition labelCharsOK (c : ascii) (i l : nat) : bool :=
  if (negb (is_digit c) && negb (is_letter c) &&
      negb (Ascii.eqb c ".") && negb (Ascii.eqb c "*") && negb (Ascii.eqb c "-"))%bool then false
  else if (Ascii.eqb c "-" && ((i =? 0)%nat || (i =? l)%nat))%bool then false
  else true.
Fixpoint label_loop (i l : nat) (s : string) : bool :=
  match s with
  | EmptyString => true
  | String c r => labelCharsOK c i l && label_loop (S i) l r
  end.
Definition labelMax : nat := 63.
Definition fqdnMax : nat := 253.
(* net.go:490-504 validLabel *)
Definition validLabel (label : string) : bool :=
  if negb ((0 <? String.length label)%nat && (String.length label <=? labelMax)%nat) then false
  else label_loop 0 (String.length label - 1) label.

(* net.go:360-386 processLabel: (labels, byte count), None when not ok.
   net.go:367-377: the inner loop; net.go:361-382: the outer loop. *)
Fixpoint process_pieces (sp : list string) (dl : list string) (c : nat) : option (list string * nat) :=
  match sp with
  | [] => Some (dl, c)
  | p :: r => if negb (validLabel p) then None
              else process_pieces r (dl ++ [p]) (c + String.length p)
  end.
Fixpoint process_loop (label : list string) (dl : list string) (c : nat) : option (list string * nat) :=
  match label with
  | [] => if ((0 <? c)%nat && (0 <? List.length dl)%nat)%bool then Some (dl, c) else None
  | x :: r =>
      if negb (validLabel x) then None
      else match idx "." x with
           | Some _ => match process_pieces (split1 "." x) dl c with
                       | None => None
                       | Some (dl', c') => process_loop r dl' c'
                       end
           | None => process_loop r (dl ++ [x]) (c + String.length x)
           end
  end.
Definition processLabel (label : list string) : option (list string * nat) := process_loop label [] 0.

(* net.go:332-358 labels.set *)
Definition labels_set (r : list string) (label : list string) : list string :=
  match label with
  | [] => r
  | _ => match processLabel label with
         | None => r
         | Some (dl, c) => if (List.length r + c <=? fqdnMax)%nat then r ++ dl else r
         end
  end.

(* net.go:263-265 FQDN: nil pointer or labels *)
Definition fqdn := option (list string).
(* net.go:323-330 Set *)
Definition fqdn_set (r : fqdn) (label : list string) : fqdn :=
  Some (labels_set (match r with None => [] | Some l => l end) label).
(* net.go:270-276 DNS *)
Definition DNS (label : list string) : fqdn :=
  match label with [] => Some [] | _ => fqdn_set (Some []) label end.
(* net.go:292-297 Len *)
Definition fqdn_Len (r : fqdn) : nat := match r with None => O | Some l => List.length l end.
(* net.go:472-485 len: the two nested loops over the labels *)
Definition fqdn_len (r : fqdn) : nat :=
  match r with None => O | Some l => fold_left (fun c _ => fold_left (fun c' _ => S c') l c) l O end.
(* net.go:457-467 Valid: no error *)
Definition fqdn_valid (r : fqdn) : bool :=
  let L := fqdn_len r in
  negb (negb ((0 <? L)%nat && (L <=? fqdnMax)%nat) ||
        match r with Some l => (List.length l <? 2)%nat | None => false end).
Definition badFQDN : string := "<invalid_fqdn_or_label>".
(* net.go:391-403 String *)
Definition fqdn_string (r : fqdn) : string :=
  if fqdn_valid r then match r with Some l => join "." l | None => "" end else badFQDN.

(* parse.go:236-256 assertBindNet for BindIP, with err.go:64-69 badIPErr;
   [vals] are the values in the parser's output. None: error. *)
Definition assertBindIP (vals : list string) : option ipaddr :=
  match vals with
  | [v] =>
      let raw := split1 "," (unquote (condenseWHSP v)) in
      let addr := fold_left (fun a x => ipaddr_set a [x]) raw None in
      if (List.length raw =? ipaddr_len addr)%nat then Some addr else None
  | _ => None
  end.
(* parse.go:258-264 assertBindNet for BindDNS, with err.go:71-76 badDNSErr *)
Definition assertBindDNS (vals : list string) : option fqdn :=
  match vals with
  | [v] =>
      let unq := unquote (condenseWHSP v) in
      let fq := DNS [unq] in
      if String.eqb unq (fqdn_string fq) then Some fq else None
  | _ => None
  end.

(* histories of Set calls *)
Definition ip_run (r : ipaddr) (h : list (list string)) : ipaddr := fold_left ipaddr_set h r.
Definition fqdn_run (r : fqdn) (h : list (list string)) : fqdn := fold_left fqdn_set h r.
