(** SpecMessage.v: resource records, rdata and messages, independently of the C code
    (RFC 1035 sections 3.2, 3.3, 4.1, RFC 3597, RFC 4034, RFC 5155, RFC 6891, RFC 9460 ...). *)
From Verif Require Import Base Lib SpecName.

(** ** Rdata formats *)
Inductive fmt : Type :=
| FName            (* domain name, possibly compressed *)
| FFixed (n : Z)   (* n octets *)
| FString          (* <character-string>: length octet and that many octets *)
| FStrings         (* character-strings up to the end of the rdata *)
| FRest            (* all remaining octets *)
| FPrefix6         (* A6: prefix length p and the ceil((128-p)/8) octets of the address suffix *)
| FTypes           (* type bit maps up to the end: window number, length 1..32, bit map *)
| FParams.         (* SvcParams up to the end: key, value length, value *)

(** RR type -> (class IN only?, fields). Types that are not listed have opaque rdata. *)
Definition rr_formats : list (Z * (bool * list fmt)) := [
  (1,  (true,  [FFixed 4]));                                   (* A *)
  (2,  (false, [FName]));                                      (* NS *)
  (3,  (false, [FName]));                                      (* MD *)
  (4,  (false, [FName]));                                      (* MF *)
  (5,  (false, [FName]));                                      (* CNAME *)
  (6,  (false, [FName; FName; FFixed 4; FFixed 4; FFixed 4; FFixed 4; FFixed 4]));   (* SOA *)
  (7,  (false, [FName]));                                      (* MB *)
  (8,  (false, [FName]));                                      (* MG *)
  (9,  (false, [FName]));                                      (* MR *)
  (10, (false, [FRest]));                                      (* NULL *)
  (11, (true,  [FFixed 4; FFixed 1; FRest]));                  (* WKS *)
  (12, (false, [FName]));                                      (* PTR *)
  (13, (false, [FString; FString]));                           (* HINFO *)
  (14, (false, [FName; FName]));                               (* MINFO *)
  (15, (false, [FFixed 2; FName]));                            (* MX *)
  (16, (false, [FStrings]));                                   (* TXT *)
  (17, (false, [FName; FName]));                               (* RP *)
  (18, (false, [FFixed 2; FName]));                            (* AFSDB *)
  (19, (false, [FString]));                                    (* X25 *)
  (20, (false, [FString; FString]));                           (* ISDN *)
  (21, (false, [FFixed 2; FName]));                            (* RT *)
  (24, (false, [FFixed 2; FFixed 1; FFixed 1; FFixed 4; FFixed 4; FFixed 4; FFixed 2; FName; FRest]));  (* SIG *)
  (26, (true,  [FFixed 2; FName; FName]));                     (* PX *)
  (28, (true,  [FFixed 16]));                                  (* AAAA *)
  (30, (false, [FName; FRest]));                               (* NXT *)
  (33, (true,  [FFixed 2; FFixed 2; FFixed 2; FName]));        (* SRV *)
  (35, (true,  [FFixed 2; FFixed 2; FString; FString; FString; FName]));   (* NAPTR *)
  (36, (true,  [FFixed 2; FName]));                            (* KX *)
  (38, (true,  [FPrefix6; FName]));                            (* A6 *)
  (39, (false, [FName]));                                      (* DNAME *)
  (41, (false, [FRest]));                                      (* OPT *)
  (43, (false, [FFixed 2; FFixed 1; FFixed 1; FRest]));        (* DS *)
  (46, (false, [FFixed 2; FFixed 1; FFixed 1; FFixed 4; FFixed 4; FFixed 4; FFixed 2; FName; FRest]));  (* RRSIG *)
  (47, (false, [FName; FTypes]));                              (* NSEC *)
  (48, (false, [FFixed 2; FFixed 1; FFixed 1; FRest]));        (* DNSKEY *)
  (50, (false, [FFixed 1; FFixed 1; FFixed 2; FString; FString; FTypes]));  (* NSEC3 *)
  (51, (false, [FFixed 1; FFixed 1; FFixed 2; FString]));      (* NSEC3PARAM *)
  (52, (false, [FFixed 1; FFixed 1; FFixed 1; FRest]));        (* TLSA *)
  (59, (false, [FFixed 2; FFixed 1; FFixed 1; FRest]));        (* CDS *)
  (60, (false, [FFixed 2; FFixed 1; FFixed 1; FRest]));        (* CDNSKEY *)
  (61, (false, [FRest]));                                      (* OPENPGPKEY *)
  (62, (false, [FFixed 4; FFixed 2; FTypes]));                 (* CSYNC *)
  (64, (true,  [FFixed 2; FName; FParams]));                   (* SVCB *)
  (65, (true,  [FFixed 2; FName; FParams]));                   (* HTTPS *)
  (99, (false, [FStrings]));                                   (* SPF *)
  (108,(false, [FFixed 6]));                                   (* EUI48 *)
  (109,(false, [FFixed 8]));                                   (* EUI64 *)
  (256,(false, [FFixed 2; FFixed 2; FRest]));                  (* URI *)
  (257,(true,  [FFixed 1; FString; FRest]))                    (* CAA *)
].

(** The fields of rdata of this type and class; opaque rdata is one field of arbitrary octets. *)
Definition format_of (rrtype rrclass : Z) : list fmt :=
  match find (fun e => fst e =? rrtype) rr_formats with
  | Some (_, (in_only, fs)) => if negb in_only || (rrclass =? 1) then fs else [FRest]
  | None => [FRest]
  end.

(** Character-strings, bit map windows, SvcParams. *)
Definition char_string (s : bytes) : bytes := zlen s :: s.
Definition window (w : Z * bytes) : bytes := fst w :: zlen (snd w) :: snd w.
Definition u16 (v : Z) : bytes := [v / 256; v mod 256].
Definition u32 (v : Z) : bytes := [v / 16777216; v / 65536 mod 256; v / 256 mod 256; v mod 256].
Definition param (kv : Z * bytes) : bytes := u16 (fst kv) ++ u16 (zlen (snd kv)) ++ snd kv.

(** What the value of a SvcParamKey must look like (RFC 9460 section 7; key 65535 is reserved). *)
Definition param_ok (key : Z) (val : bytes) : Prop :=
  0 <= key < 65535 /\
  (key = 0 -> exists n, zlen val = 2 * n) /\
  (key = 1 -> exists ids, ids <> [] /\ Forall (fun s => zlen s <= 255) ids /\ val = concat (map char_string ids)) /\
  (key = 2 -> val = []) /\
  (key = 3 -> zlen val = 2) /\
  (key = 4 -> exists n, zlen val = 4 * n) /\
  (key = 6 -> exists n, zlen val = 16 * n).

(** [field_octets f l]: the octets [l] are a complete field of (non-name) format [f]. *)
Definition field_octets (f : fmt) (l : bytes) : Prop :=
  match f with
  | FName => False
  | FFixed n => zlen l = n
  | FString => exists s, zlen s <= 255 /\ l = char_string s
  | FStrings => exists ss, Forall (fun s => zlen s <= 255) ss /\ l = concat (map char_string ss)
  | FRest => True
  | FPrefix6 => exists p a, 0 <= p <= 128 /\ zlen a = (128 - p + 7) / 8 /\ l = p :: a
  | FTypes => exists ws, Forall (fun w => 1 <= zlen (snd w) <= 32) ws /\ l = concat (map window ws)
  | FParams => exists ps, Forall (fun kv => param_ok (fst kv) (snd kv) /\ zlen (snd kv) < 65532) ps /\ l = concat (map param ps)
  end.

(** Formats that extend to the end of the rdata. *)
Definition to_end (f : fmt) : bool := match f with FStrings | FRest | FTypes | FParams => true | _ => false end.

(** Field values and their canonical (uncompressed) form. *)
Inductive fval : Type := VName (ls : lname) | VOctets (l : bytes).
Definition canon1 (v : fval) : bytes := match v with VName ls => wire ls | VOctets l => l end.
Definition canon (vs : list fval) : bytes := concat (map canon1 vs).

(** [rdata_at m fs i n vs]: the [n] octets of message [m] at offset [i] are rdata with the fields [fs], holding the
    values [vs]. When the octets are exhausted at a field boundary the remaining fields are absent. *)
Inductive rdata_at (m : bytes) : list fmt -> Z -> Z -> list fval -> Prop :=
| ra_end : forall fs i, rdata_at m fs i 0 []
| ra_name : forall fs i n ls e vs, denotes m i ls -> zlen (wire ls) <= 255 -> extent m i e -> e <= n ->
    rdata_at m fs (i + e) (n - e) vs -> rdata_at m (FName :: fs) i n (VName ls :: vs)
| ra_octets : forall f fs i n l vs, field_octets f l -> octets_at m i l -> 0 < zlen l <= n ->
    (to_end f = true -> zlen l = n) ->
    rdata_at m fs (i + zlen l) (n - zlen l) vs -> rdata_at m (f :: fs) i n (VOctets l :: vs).

(** ** Resource records *)
Record srr := { s_name : lname; s_type : Z; s_class : Z; s_ttl : Z; s_data : option (list fval) }.

(** [question_at m i r n] / [record_at m i r n]: at offset [i] of [m] an entry [r] of [n] octets. *)
Definition owner_at (m : bytes) (i : Z) (ls : lname) (e : Z) : Prop :=
  denotes m i ls /\ zlen (wire ls) <= 255 /\ extent m i e.

Definition question_at (m : bytes) (i : Z) (r : srr) (n : Z) : Prop :=
  exists e t0 t1 c0 c1, owner_at m i (s_name r) e /\ octets_at m (i + e) [t0; t1; c0; c1] /\
    s_type r = t0 * 256 + t1 /\ s_class r = c0 * 256 + c1 /\ s_ttl r = 0 /\ s_data r = None /\ n = e + 4.

Definition record_at (m : bytes) (i : Z) (r : srr) (n : Z) : Prop :=
  exists e t0 t1 c0 c1 w x y z l0 l1 vs, owner_at m i (s_name r) e /\
    octets_at m (i + e) [t0; t1; c0; c1; w; x; y; z; l0; l1] /\
    s_type r = t0 * 256 + t1 /\ s_class r = c0 * 256 + c1 /\
    s_ttl r = w * 16777216 + x * 65536 + y * 256 + z /\
    let rdlen := l0 * 256 + l1 in
    i + e + 10 + rdlen <= zlen m /\ rdata_at m (format_of (s_type r) (s_class r)) (i + e + 10) rdlen vs /\
    s_data r = Some vs /\ n = e + 10 + rdlen.

Definition entry_at (sec : Z) : bytes -> Z -> srr -> Z -> Prop := if sec =? 0 then question_at else record_at.

(** [entries_at sec m i n rs j]: [n] entries of section [sec] starting at [i] are [rs], ending at [j]; the message may
    end at an entry boundary, then the remaining entries are missing. *)
Inductive entries_at (sec : Z) (m : bytes) : Z -> Z -> list srr -> Z -> Prop :=
| en_done : forall i, entries_at sec m i 0 [] i
| en_cut : forall n, 0 < n -> entries_at sec m (zlen m) n [] (zlen m)
| en_more : forall i n r k rs j, 0 < n -> i < zlen m -> entry_at sec m i r k -> entries_at sec m (i + k) (n - 1) rs j ->
    entries_at sec m i n (r :: rs) j.

(** ** Messages *)
Record smsg := { sm_id : Z; sm_flags : Z; sm_qd : list srr; sm_an : list srr; sm_ns : list srr; sm_ar : list srr }.

Definition message_at (m : bytes) (s : smsg) : Prop :=
  exists i0 i1 f0 f1 q0 q1 a0 a1 n0 n1 r0 r1 j1 j2 j3 j4,
    octets_at m 0 [i0; i1; f0; f1; q0; q1; a0; a1; n0; n1; r0; r1] /\
    sm_id s = i0 * 256 + i1 /\ sm_flags s = f0 * 256 + f1 /\
    entries_at 0 m 12 (q0 * 256 + q1) (sm_qd s) j1 /\
    entries_at 1 m j1 (a0 * 256 + a1) (sm_an s) j2 /\
    entries_at 2 m j2 (n0 * 256 + n1) (sm_ns s) j3 /\
    entries_at 3 m j3 (r0 * 256 + r1) (sm_ar s) j4.

(** ** Packets without SvcParams whose length field is near 65535 (the known defect of the parser)

    [params_reach m hi i j]: from offset [i], reading complete SvcParams (key, length, value) that end at or before [hi],
    one gets to offset [j]. *)
Inductive params_reach (m : bytes) (hi : Z) : Z -> Z -> Prop :=
| pr_here : forall i, params_reach m hi i i
| pr_next : forall i kv j, octets_at m i (param kv) -> i + zlen (param kv) <= hi -> params_reach m hi (i + zlen (param kv)) j -> params_reach m hi i j.
(** No SvcParam met on the way from [lo] to [hi] announces a value of 65532 octets or more. *)
Definition no_huge_param (m : bytes) (lo hi : Z) : Prop := forall i k0 k1 l0 l1,
  params_reach m hi lo i -> i + 4 <= hi -> octets_at m i [k0; k1; l0; l1] -> l0 * 256 + l1 < 65532.
(** Wherever octets look like type, class, TTL and length of an SVCB (64) or HTTPS (65) record of class IN followed by the
    priority and a target name of [e] octets, no SvcParam behind it announces 65532 octets or more. *)
Definition tame (m : bytes) : Prop := forall i t x y z w l0 l1 e, octets_at m i [0; t; 0; 1; x; y; z; w; l0; l1] -> t = 64 \/ t = 65 ->
  extent m (i + 12) e -> no_huge_param m (i + 12 + e) (i + 10 + (l0 * 256 + l1)).
