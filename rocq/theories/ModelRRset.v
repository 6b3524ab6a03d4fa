(** ModelRRset.v: serialisation, sorting and case-folding of RRsets. *)
From Verif Require Import Base ModelName ModelDescr ModelParse.

(** ** wdns_serialize_rrset *)

(** memcpy of a uint16_t / uint32_t object to or from memory (serialize_rrset.c:57-76, deserialize_rrset.c:51-67): the
    object representation depends on the host; [big] is true on a big-endian host. *)
Definition store16 (big : bool) (v : Z) : bytes :=
  if big then [v / 256; v mod 256] else [v mod 256; v / 256].
Definition store32 (big : bool) (v : Z) : bytes :=
  let b := [v / 16777216; v / 65536 mod 256; v / 256 mod 256; v mod 256] in if big then b else rev b.
Definition load16 (big : bool) (l : bytes) : Z :=
  match l with [a; b] => if big then be16 a b else be16 b a | _ => 0 end.
Definition load32 (big : bool) (l : bytes) : Z :=
  match l with [a; b; c; d] => if big then be32 a b c d else be32 d c b a | _ => 0 end.

(** wdns/serialize_rrset.c:30-45, the value stored through sz (size_t, 64 bits: cannot wrap). *)
Definition serialize_size (s : rrset) : Z :=
  fold_left (fun sz rd => sz + 2 + zlen rd) (rs_rdatas s) (1 + zlen (rs_name s) + 2 + 2 + 4 + 2).

(** wdns/serialize_rrset.c:72-82, the loop over the rdatas. [cap]: octets the caller provides at buf. *)
Fixpoint serialize_rdatas (big : bool) (cap : Z) (out : bytes) (rds : list bytes) : outcome bytes :=
  match rds with
  | [] => Ok out
  | d :: rds =>
    let rdlen := zlen d in
    out <- push cap out (store16 big rdlen) ;;
    out <- push cap out d ;;
    serialize_rdatas big cap out rds
  end.

(** wdns/serialize_rrset.c:47-83. Result: what has been stored from buf on. *)
Definition serialize_rrset (big : bool) (cap : Z) (s : rrset) : outcome bytes :=
  out <- push cap [] [zlen (rs_name s)] ;;
  out <- push cap out (rs_name s) ;;
  out <- push cap out (store16 big (rs_type s)) ;;
  out <- push cap out (store16 big (rs_class s)) ;;
  out <- push cap out (store32 big (rs_ttl s)) ;;
  out <- push cap out (store16 big (zlen (rs_rdatas s))) ;;
  serialize_rdatas big cap out (rs_rdatas s).

(** ** wdns_deserialize_rrset *)

(** The rrset structure while it is being filled: [None] is a NULL pointer. *)
Record rrset_obj := { o_name_len : Z; o_name : option bytes; o_type : Z; o_class : Z; o_ttl : Z;
                      o_n_rdatas : Z; o_rdatas : option (list (option bytes)) }.

(** deserialize_rrset.c:41, memset 0. *)
Definition zero_obj : rrset_obj :=
  {| o_name_len := 0; o_name := None; o_type := 0; o_class := 0; o_ttl := 0; o_n_rdatas := 0; o_rdatas := None |}.

(** wdns/clear.c:24-32, wdns_clear_rrset: the pointers become NULL (my_free, libmy/my_alloc.h:40) and n_rdatas 0. The loop of
    clear.c:27-28 dereferences rdatas[0 .. n_rdatas). *)
Definition clear_rrset (o : rrset_obj) : outcome rrset_obj :=
  if (0 <? o_n_rdatas o) && match o_rdatas o with None => true | Some l => zlen l <? o_n_rdatas o end then UB OobRead
  else Ok {| o_name_len := o_name_len o; o_name := None; o_type := o_type o; o_class := o_class o; o_ttl := o_ttl o;
             o_n_rdatas := 0; o_rdatas := None |}.

(** The macro copy_bytes, deserialize_rrset.c:29-37: [buf] memory from the pointer buf on, [br] bytes_read. Either the
    copied octets with the advanced state, or [None]: overflow. *)
Definition dcopy (buf : bytes) (br sz len : Z) : outcome (option (bytes * bytes * Z)) :=
  if br + len >? sz then Ok None
  else (l <- take_rd buf len ;; Ok (Some (l, adv buf len, br + len))).

(** Overflow exit of copy_bytes. *)
Definition dfail (o : rrset_obj) : outcome (res * rrset_obj) := o <- clear_rrset o ;; Ok (res_overflow, o).

(** rrset->rdatas[i] for i < done are set, the others are still NULL (my_calloc). *)
Definition with_rdatas (o : rrset_obj) (done : list bytes) (left : nat) : rrset_obj :=
  {| o_name_len := o_name_len o; o_name := o_name o; o_type := o_type o; o_class := o_class o; o_ttl := o_ttl o;
     o_n_rdatas := o_n_rdatas o; o_rdatas := Some (map Some done ++ repeat None left) |}.

(** wdns/deserialize_rrset.c:63-71; [left] iterations remain. While the octets of rdatas[i] are copied the block is
    already stored in the array (line 68 before 70); its content is irrelevant for the overflow exit, [] is used. *)
Fixpoint deserialize_rdatas (left : nat) (big : bool) (buf : bytes) (br sz : Z) (o : rrset_obj) (done : list bytes)
  : outcome (res * rrset_obj) :=
  match left with
  | O => Ok (res_success, with_rdatas o done 0)
  | S left' =>
    r <- dcopy buf br sz 2 ;;
    match r with
    | None => dfail (with_rdatas o done left)
    | Some (l, buf, br) =>
      let rdlen := load16 big l in
      r <- dcopy buf br sz rdlen ;;
      match r with
      | None => dfail (with_rdatas o (done ++ [[]]) left')
      | Some (d, buf, br) => deserialize_rdatas left' big buf br sz o (done ++ [d])
      end
    end
  end.

(** wdns/deserialize_rrset.c:25-74. [buf]: memory at buf; result: return code and *rrset. The blocks allocated at lines 47
    and 68 hold name.len and 2 + rdlen octets or more, so the stores into them are in bounds. *)
Definition deserialize_rrset (big : bool) (buf : bytes) (sz : Z) : outcome (res * rrset_obj) :=
  r <- dcopy buf 0 sz 1 ;;
  match r with
  | None => dfail zero_obj
  | Some (l, buf, br) =>
    let nlen := hd 0 l in
    let o := {| o_name_len := nlen; o_name := Some []; o_type := 0; o_class := 0; o_ttl := 0; o_n_rdatas := 0; o_rdatas := None |} in
    r <- dcopy buf br sz nlen ;;
    match r with
    | None => dfail o
    | Some (name, buf, br) =>
      let o := {| o_name_len := nlen; o_name := Some name; o_type := 0; o_class := 0; o_ttl := 0; o_n_rdatas := 0; o_rdatas := None |} in
      r <- dcopy buf br sz 2 ;;
      match r with
      | None => dfail o
      | Some (l, buf, br) =>
        let t := load16 big l in
        let o := {| o_name_len := nlen; o_name := Some name; o_type := t; o_class := 0; o_ttl := 0; o_n_rdatas := 0; o_rdatas := None |} in
        r <- dcopy buf br sz 2 ;;
        match r with
        | None => dfail o
        | Some (l, buf, br) =>
          let c := load16 big l in
          let o := {| o_name_len := nlen; o_name := Some name; o_type := t; o_class := c; o_ttl := 0; o_n_rdatas := 0; o_rdatas := None |} in
          r <- dcopy buf br sz 4 ;;
          match r with
          | None => dfail o
          | Some (l, buf, br) =>
            let ttl := load32 big l in
            let o := {| o_name_len := nlen; o_name := Some name; o_type := t; o_class := c; o_ttl := ttl; o_n_rdatas := 0; o_rdatas := None |} in
            r <- dcopy buf br sz 2 ;;
            match r with
            | None => dfail o
            | Some (l, buf, br) =>
              let n := load16 big l in
              let o := {| o_name_len := nlen; o_name := Some name; o_type := t; o_class := c; o_ttl := ttl; o_n_rdatas := n; o_rdatas := None |} in
              deserialize_rdatas (Z.to_nat n) big buf br sz o []
            end
          end
        end
      end
    end
  end.

(** ** wdns_sort_rrset *)

(** memcmp of equally long octet strings: sign of the first difference. *)
Fixpoint memcmp (a b : bytes) : Z :=
  match a, b with
  | x :: a, y :: b => if x =? y then memcmp a b else x - y
  | _, _ => 0
  end.

(** wdns/sort_rrset.c:17-30. *)
Definition rdata_cmp (r1 r2 : bytes) : Z :=
  if zlen r1 <? zlen r2 then -1
  else if zlen r1 >? zlen r2 then 1
  else memcmp r1 r2.

(** qsort (sort_rrset.c:42-45). ISO C 7.22.5.2 does not fix the algorithm; the model uses insertion sort, and PropRRset.v
    proves that every permutation sorted by rdata_cmp equals this result, so no other qsort can differ. *)
Fixpoint insert_by (cmp : bytes -> bytes -> Z) (a : bytes) (l : list bytes) : list bytes :=
  match l with
  | [] => [a]
  | b :: l' => if cmp a b <=? 0 then a :: l else b :: insert_by cmp a l'
  end.
Fixpoint qsort (cmp : bytes -> bytes -> Z) (l : list bytes) : list bytes :=
  match l with [] => [] | a :: l => insert_by cmp a (qsort cmp l) end.

(** wdns/sort_rrset.c:38-47. *)
Definition sort_rrset (s : rrset) : rrset :=
  {| rs_name := rs_name s; rs_type := rs_type s; rs_class := rs_class s; rs_ttl := rs_ttl s;
     rs_rdatas := if zlen (rs_rdatas s) >? 1 then qsort rdata_cmp (rs_rdatas s) else rs_rdatas s |}.

(** ** wdns_downcase_rdata *)

(** The rrtypes of the switch, downcase_rdata.c:44-67 (numbers from wdns.h.in:68-156). *)
Definition downcase_types : list Z :=
  [38; 18; 5; 39; 36; 7; 3; 4; 8; 14; 9; 15; 35; 2; 30; 12; 26; 17; 21; 24; 6; 33].

(** downcase_rdata.c:82-90: [while (bytes_remaining-- != 0)]. bytes_remaining is a size_t (64 bits): it wraps to 2^64 - 1
    when the loop ends without meeting a zero octet. [don]: octets before p, [p]: memory from p on. *)
Fixpoint dcase_name (fuel : nat) (don p : bytes) (rem : Z) : outcome (bytes * bytes * Z) :=
  match fuel with
  | O => NoFuel
  | S k =>
    if rem =? 0 then Ok (don, p, (rem - 1) mod 2 ^ 64)
    else
    let rem := rem - 1 in
    c <- hd_rd p ;;
    if c =? 0 then Ok (don ++ [c], tl p, rem)
    else dcase_name k (don ++ [dc c]) (tl p) rem
  end.

(** Control flow out of one field: return from wdns_downcase_rdata with the memory as it is then, or go on. *)
Inductive dflow := DReturn (r : res) (m : bytes) | DGo (don p : bytes) (rem : Z).

(** The macro advance_bytes, downcase_rdata.c:21-26: moves p without reading. *)
Definition dadv (don p : bytes) (rem x : Z) : dflow :=
  if rem <? x then DReturn res_parse_error (don ++ p)
  else DGo (don ++ firstn (Z.to_nat x) p) (adv p x) (rem - x).

(** One field, downcase_rdata.c:79-143; the fall-through of rdf_eui64 (lines 123-129) is kept. rdf_edns_opt_rdata is the
    abort() of line 142. *)
Definition dcase_field (t : rdf) (don p : bytes) (rem : Z) : outcome dflow :=
  match t with
  | rdf_name | rdf_uname => '(don, p, rem) <- dcase_name (S (length p)) don p rem ;; Ok (DGo don p rem)
  | rdf_repstring | rdf_bytes | rdf_bytes_b64 | rdf_bytes_str | rdf_type_bitmap | rdf_svcparams =>
      Ok (DReturn res_success (don ++ p))
  | rdf_int8 => Ok (dadv don p rem 1)
  | rdf_int16 | rdf_rrtype => Ok (dadv don p rem 2)
  | rdf_int32 | rdf_ipv4 => Ok (dadv don p rem 4)
  | rdf_ipv6 => Ok (dadv don p rem 16)
  | rdf_eui48 => Ok (dadv don p rem 6)
  | rdf_eui64 =>
      match dadv don p rem 8 with
      | DReturn r m => Ok (DReturn r m)
      | DGo don p rem => oclen <- hd_rd p ;; Ok (dadv don p rem (oclen + 1))
      end
  | rdf_string | rdf_salt | rdf_hash => oclen <- hd_rd p ;; Ok (dadv don p rem (oclen + 1))
  | rdf_ipv6prefix =>
      oclen <- hd_rd p ;;
      if oclen >? 16 then Ok (DReturn res_parse_error (don ++ p)) else Ok (dadv don p rem (oclen + 1))
  | rdf_edns_opt_rdata => UB AbortCall
  end.

(** The loop downcase_rdata.c:75-145 and the test of lines 146-148. *)
Fixpoint dcase_fields (ts : list rdf) (don p : bytes) (rem : Z) : outcome (res * bytes) :=
  match ts with
  | [] => Ok (if rem =? 0 then res_success else res_parse_error, don ++ p)
  | t :: ts =>
    if rem =? 0 then Ok (res_success, don ++ p)
    else
    fl <- dcase_field t don p rem ;;
    match fl with
    | DReturn r m => Ok (r, m)
    | DGo don p rem => dcase_fields ts don p rem
    end
  end.

(** wdns/downcase_rdata.c:17-152. [m]: memory at rdata->data, [len] = rdata->len. Result: return code and that memory
    afterwards. *)
Definition downcase_rdata (m : bytes) (len rrtype rrclass : Z) : outcome (res * bytes) :=
  match lookup_descr rrtype with
  | None => Ok (res_success, m)
  | Some d =>
    if negb (existsb (fun t => t =? rrtype) downcase_types) then Ok (res_success, m)
    else if (d_class d =? class_un) || (d_class d =? rrclass) then dcase_fields (d_types d) [] m len
    else Ok (res_success, m)
  end.

(** ** wdns_downcase_rrset *)

(** wdns/downcase_rrset.c:23-30: stops at the first rdata that fails, the later ones stay as they are. The rdatas of an
    RRset are never NULL once it is complete (deserialize_rrset.c:64-71, insert_rr_rrset_array.c:72-80). *)
Fixpoint downcase_rdatas (rds : list bytes) (rrtype rrclass : Z) : outcome (res * list bytes) :=
  match rds with
  | [] => Ok (res_success, [])
  | d :: rds =>
    '(r, d) <- downcase_rdata d (zlen d) rrtype rrclass ;;
    match r with
    | res_success => '(r, rds) <- downcase_rdatas rds rrtype rrclass ;; Ok (r, d :: rds)
    | _ => Ok (r, d :: rds)
    end
  end.

(** wdns/downcase_rrset.c:17-33. Result: return code and *rrset. *)
Definition downcase_rrset (s : rrset) : outcome (res * rrset) :=
  name <- downcase_name (rs_name s) (zlen (rs_name s)) ;;
  '(r, rds) <- downcase_rdatas (rs_rdatas s) (rs_type s) (rs_class s) ;;
  Ok (r, {| rs_name := name; rs_type := rs_type s; rs_class := rs_class s; rs_ttl := rs_ttl s; rs_rdatas := rds |}).
