(** SpecRead.v: which texts are read as rdata, and as what octets; independently of the C code. It describes what the
    library accepts, which is more than the presentation format of SpecText.v: fields may be missing at the end, text
    behind the last field is not looked at, hexadecimal text is read with the %02hhx conversion of scanf, base64 text may
    contain any other character. Addresses, type mnemonics and service parameter
    keys are those of inet_pton, wdns_str_to_rrtype and _wdns_str_to_svcparamkey. *)
From Verif Require Import Base Lib SpecName SpecStrName SpecMessage SpecFormat SpecText Libc ModelTables.

(** A word: up to the first space, tab, carriage return or line feed, or the end. *)
Definition blank (c : Z) : Prop := c = 32 \/ c = 9 \/ c = 13 \/ c = 10.
Definition word (s t e : bytes) : Prop :=
  s = t ++ e /\ t <> [] /\ Forall (fun c => ~ blank c) t /\ (e = [] \/ exists c r, e = c :: r /\ blank c).

(** A decimal numeral, leading zeros allowed. *)
Definition numeral (t : bytes) (v : Z) : Prop := t <> [] /\ Forall digit t /\ v = dec_value t.

(** The conversion "%02hhx" (ISO C 7.21.6.2): white space is skipped, then at most two characters are used: a sign or not,
    and one or two digits. *)
Definition not_hex_head (s : bytes) : Prop := forall c r x, s = c :: r -> ~ hex_digit c x.
Inductive scan_02hhx : bytes -> Z -> Prop :=
| sx_white : forall c s v, white c -> scan_02hhx s v -> scan_02hhx (c :: s) v
| sx_two : forall c d x y s, hex_digit c x -> hex_digit d y -> scan_02hhx (c :: d :: s) (16 * x + y)
| sx_one : forall c x s, hex_digit c x -> not_hex_head s -> scan_02hhx (c :: s) x
| sx_plus : forall c x s, hex_digit c x -> scan_02hhx (43 :: c :: s) x
| sx_minus : forall c x s, hex_digit c x -> scan_02hhx (45 :: c :: s) ((256 - x) mod 256).

(** [k] octets, a conversion at every second character. *)
Inductive hex_columns : nat -> bytes -> bytes -> bytes -> Prop :=
| hc_none : forall s, hex_columns 0 s [] s
| hc_octet : forall k a b s v l e, scan_02hhx (a :: b :: s) v -> hex_columns k s l e -> hex_columns (S k) (a :: b :: s) (v :: l) e.

(** Generic text: as before, but white space between the octets is skipped. *)
Inductive loose_hex : bytes -> bytes -> Prop :=
| lh_nil : loose_hex [] []
| lh_white : forall c s l, white c -> loose_hex s l -> loose_hex (c :: s) l
| lh_octet : forall a b s v l, ~ white a -> scan_02hhx (a :: b :: s) v -> loose_hex s l -> loose_hex (a :: b :: s) (v :: l).

(** Base 64 and base 32: the values of the digits, other characters being skipped (base 64) or not allowed, except that
    nothing counts from the first '=' on (base 32); then all complete octets of the bit string. *)
Definition b64_value_of (c v : Z) : Prop := 0 <= v < 64 /\ c = b64_char v.
Inductive b64_chars : bytes -> list Z -> Prop :=
| bd_nil : b64_chars [] []
| bd_digit : forall c v s vs, b64_value_of c v -> b64_chars s vs -> b64_chars (c :: s) (v :: vs)
| bd_other : forall c s vs, (forall v, ~ b64_value_of c v) -> c <> 123 -> b64_chars s vs -> b64_chars (c :: s) vs.
(** '{' is not another character: it makes the C code read behind its table. *)

Fixpoint bits (n : nat) (v : Z) : list bool := match n with O => [] | S k => bits k (v / 2) ++ [Z.odd v] end.
Definition bit_string (n : nat) (vs : list Z) : list bool := concat (map (bits n) vs).
(** [l] are the complete octets at the head of the bit string [b]. *)
Definition octets_of (b : list bool) (l : bytes) : Prop :=
  bytes_ok l /\ exists tail, (length tail < 8)%nat /\ b = bit_string 8 l ++ tail.

Definition b32_value_of (c v : Z) : Prop :=
  0 <= v < 32 /\ (c = b32_char v \/ (10 <= v /\ c = b32_char v + 32)).
Inductive b32_chars : bytes -> list Z -> Prop :=
| br_nil : b32_chars [] []
| br_digit : forall c v s vs, b32_value_of c v -> b32_chars s vs -> b32_chars (c :: s) (v :: vs)
| br_pad : forall s, Forall (fun c => c = 61 \/ exists v, b32_value_of c v) s -> b32_chars (61 :: s) [].

(** Character-strings: in quotes, or up to white space or the end. *)
Inductive cs_octet (quoted : bool) : bytes -> Z -> Prop :=
| co_plain : forall c, 32 <= c <= 126 -> c <> 92 -> c <> (if quoted then 34 else 32) -> cs_octet quoted [c] c
| co_quote : forall c, c = 34 \/ c = 92 -> cs_octet quoted [92; c] c
| co_ddd : forall a b c, digit a -> digit b -> digit c -> (a - 48) * 100 + (b - 48) * 10 + (c - 48) <= 255 ->
    cs_octet quoted [92; a; b; c] ((a - 48) * 100 + (b - 48) * 10 + (c - 48)).
Inductive cs_octets (quoted : bool) : bytes -> bytes -> Prop :=
| cs_nil : cs_octets quoted [] []
| cs_cons : forall t c s l, cs_octet quoted t c -> cs_octets quoted s l -> cs_octets quoted (t ++ s) (c :: l).
Inductive string_read : bytes -> bytes -> bytes -> Prop :=
| st_quoted : forall t l e, cs_octets true t l -> string_read (34 :: t ++ 34 :: e) l e
| st_plain : forall t l e, cs_octets false t l -> hd 34 t <> 34 -> (e = [] \/ exists c r, e = c :: r /\ white c) ->
    string_read (t ++ e) l e.

Inductive strings_read : bytes -> list bytes -> Prop :=
| ss_nil : strings_read [] []
| ss_white : forall c s ls, white c -> strings_read s ls -> strings_read (c :: s) ls
| ss_string : forall c s l e ls, ~ white c -> string_read (c :: s) l e -> zlen l <= 255 -> strings_read e ls ->
    strings_read (c :: s) (l :: ls).

(** Type mnemonics up to the end. *)
Inductive types_read : bytes -> list Z -> Prop :=
| tt_nil : types_read [] []
| tt_white : forall c s ts, white c -> types_read s ts -> types_read (c :: s) ts
| tt_type : forall c s t e ts, ~ white c -> word (c :: s) t e -> (str_to_rrtype t = 0 -> strcasecmp t (lit "TYPE0") = 0) ->
    types_read e ts -> types_read (c :: s) (str_to_rrtype t :: ts).

(** ** SvcParams *)
(** What strtok_r gives with one delimiter: the non-empty runs of other characters. *)
Inductive tokens (d : Z) : bytes -> list bytes -> Prop :=
| tk_nil : tokens d [] []
| tk_delimiter : forall s ts, tokens d s ts -> tokens d (d :: s) ts
| tk_token : forall t e ts, t <> [] -> Forall (fun c => c <> d) t -> (e = [] \/ exists r, e = d :: r) -> tokens d e ts -> tokens d (t ++ e) (t :: ts).
(** The C string at the head of some octets: up to the first NUL. *)
Definition up_to_nul (v u : bytes) : Prop := Forall (fun c => c <> 0) u /\ (v = u \/ exists r, v = u ++ 0 :: r).
(** What strtoul accepts as a whole, and its value: white space, a sign, digits. *)
Definition c_unsigned (t : bytes) (v : Z) : Prop :=
  exists w sg d n, t = w ++ sg ++ d /\ Forall white w /\ numeral d n /\
    (((sg = [] \/ sg = [43]) /\ v = Z.min n (2 ^ 64 - 1)) \/
     (sg = [45] /\ v = (if n <=? 2 ^ 64 - 1 then (- n) mod 2 ^ 64 else 2 ^ 64 - 1))).
(** Protocol ids separated by commas, comma and backslash being escaped; an id of 256 octets gets the length octet 0. *)
Inductive alpn_octet : bytes -> Z -> Prop :=
| ao_plain : forall c, c <> 92 -> c <> 44 -> alpn_octet [c] c
| ao_escaped : forall c, c = 92 \/ c = 44 -> alpn_octet [92; c] c.
Inductive alpn_id : bytes -> bytes -> Prop :=
| an_nil : alpn_id [] []
| an_cons : forall t c s l, alpn_octet t c -> alpn_id s l -> alpn_id (t ++ s) (c :: l).
Inductive alpn_ids : bytes -> list bytes -> Prop :=
| as_last : forall t l, alpn_id t l -> alpn_ids t [l]
| as_more : forall t l s ls, alpn_id t l -> alpn_ids s ls -> alpn_ids (t ++ 44 :: s) (l :: ls).
Definition alpn_octets (ls : list bytes) : bytes := concat (map (fun l => zlen l mod 256 :: l) ls).
(** The length written in front of them: a last id with length octet 0 is not counted. *)
Fixpoint alpn_length (ls : list bytes) : Z :=
  match ls with
  | [] => 0
  | [l] => if zlen l mod 256 =? 0 then 0 else zlen l mod 256 + 1
  | l :: ls => zlen l mod 256 + 1 + alpn_length ls
  end.

(** [value_reads k v o n]: the (unescaped) value [v] of key [k] is read as the octets [o] with announced length [n]. *)
Inductive value_reads : Z -> bytes -> bytes -> Z -> Prop :=
| vr_mandatory : forall v u ts, up_to_nul v u -> tokens 44 u ts -> ts <> [] -> Forall (fun t => str_to_svckey t <> 65535) ts ->
    value_reads 0 v (concat (map (fun t => u16 (str_to_svckey t)) ts)) (2 * zlen ts mod 65536)
| vr_alpn : forall v ls, alpn_ids v ls -> value_reads 1 v (alpn_octets ls) (alpn_length ls mod 65536)
| vr_port : forall v u t ts p, up_to_nul v u -> tokens 32 u (t :: ts) -> c_unsigned t p -> p <= 65535 -> value_reads 3 v (u16 p) 2
| vr_ipv4hint : forall v u ts az, up_to_nul v u -> tokens 44 u ts -> ts <> [] -> Forall2 (fun t a => inet_pton4 t = Some a) ts az ->
    value_reads 4 v (concat az) (4 * zlen ts mod 65536)
| vr_ech : forall v u t ts vs l, up_to_nul v u -> tokens 32 u (t :: ts) -> zlen t <= 255 -> b64_chars t vs -> octets_of (bit_string 6 vs) l ->
    value_reads 5 v l (zlen l)
| vr_ipv6hint : forall v u ts az, up_to_nul v u -> tokens 44 u ts -> ts <> [] -> Forall2 (fun t a => inet_pton6 t = Some a) ts az ->
    value_reads 6 v (concat az) (16 * zlen ts mod 65536)
| vr_other : forall k v, ~ In k [0; 1; 2; 3; 4; 5; 6] -> value_reads k v v (zlen v mod 65536).

(** Parameters separated by blanks, or by nothing behind a quoted value. *)
Inductive service_params : bytes -> bytes -> Prop :=
| pr_nil : service_params [] []
| pr_blank : forall s o, service_params s o -> service_params (32 :: s) o
| pr_flag : forall k e o, Forall (fun c => c <> 61 /\ c <> 32) k -> (e = [] \/ exists r, e = 32 :: r) -> str_to_svckey k = 2 ->
    service_params e o -> service_params (k ++ e) (u16 2 ++ u16 0 ++ o)
| pr_value : forall k s v w n e o, Forall (fun c => c <> 61 /\ c <> 32) k -> str_to_svckey k <> 65535 -> string_read s v e ->
    value_reads (str_to_svckey k) v w n -> service_params e o -> service_params (k ++ 61 :: s) (u16 (str_to_svckey k) ++ u16 n ++ w ++ o).

(** ** Fields. [reads_field f p s o e]: at the head of [s] the field is read as the octets [o], and [e] is left. *)
Inductive reads_field : fmt -> pres -> bytes -> bytes -> bytes -> Prop :=
| rf_name : forall f s t e ls, word s t e -> written same t ls -> zlen (wire ls) <= 255 -> reads_field f PName s (wire ls) e
| rf_number : forall n s t e v o, word s t e -> numeral t v -> bytes_ok o -> zlen o = n -> be_value o = v ->
    reads_field (FFixed n) PDec s o e
| rf_type : forall f s t e, word s t e -> str_to_rrtype t <> 0 -> reads_field f PType s (u16 (str_to_rrtype t)) e
| rf_ipv4 : forall f s t e a, word s t e -> inet_pton4 t = Some a -> reads_field f PIPv4 s a e
| rf_ipv6 : forall f s t e a, word s t e -> inet_pton6 t = Some a -> reads_field f PIPv6 s a e
| rf_hex : forall f k s l, hex_columns k s l [] -> reads_field f PHex s l []
| rf_base64 : forall f s vs l, b64_chars s vs -> octets_of (bit_string 6 vs) l -> reads_field f PBase64 s l []
| rf_quoted : forall f s l e, string_read (34 :: s) l e -> s <> [34] -> last s 0 = 34 -> reads_field f PQuoted (34 :: s) l []
| rf_no_salt : forall f s e, word s [45] e -> reads_field f PSalt s (char_string []) e
| rf_salt : forall f s t e k l, word s t e -> zlen t = 2 * Z.of_nat k -> (k <= 255)%nat -> hex_columns k s l e ->
    reads_field f PSalt s (char_string l) e
| rf_no_hash : forall f s c e, word s [c] e -> reads_field f PHash s (char_string []) e
| rf_hash : forall f s t e vs l, word s t e -> 1 < zlen t -> b32_chars t vs -> octets_of (bit_string 5 vs) l -> zlen l <= 255 ->
    reads_field f PHash s (char_string l) e
| rf_eui : forall n s l, zlen l = n -> Forall is_byte l ->
    (exists hs, Forall2 (fun b h => exists c d x y, h = [c; d] /\ hex_digit c x /\ hex_digit d y /\ b = 16 * x + y) l hs /\
                s = join_by 45 hs) -> reads_field (FFixed n) PEui s l []
| rf_string : forall f s l e, string_read s l e -> zlen l <= 255 -> reads_field f PString s (char_string l) e
| rf_strings : forall f s ls, strings_read s ls -> reads_field f PStrings s (concat (map char_string ls)) []
| rf_prefix : forall f s t e v p w c r t' e' a, word s t e -> numeral t v -> p = Z.min v (2 ^ 64 - 1) mod 256 -> p <= 128 ->
    e = w ++ c :: r -> Forall white w -> ~ white c -> word (c :: r) t' e' -> inet_pton6 t' = Some a -> (p = 0 -> Forall white e') ->
    reads_field f PPrefix6 s (p :: skipn (16 - Z.to_nat ((128 - p + 7) / 8)) a) (if p =? 0 then [] else e')
| rf_prefix_128 : forall f s t e v w c r t' e', word s t e -> numeral t v -> Z.min v (2 ^ 64 - 1) mod 256 = 128 ->
    e = w ++ c :: r -> Forall white w -> ~ white c -> word (c :: r) t' e' -> inet_pton6 t' = None ->
    reads_field f PPrefix6 s [128] (c :: r)
| rf_params : forall f s o, service_params s o -> reads_field f PParams s o []
| rf_types : forall f s ts ws, types_read s ts -> canonical ws -> (forall t, In t (bitmap_types ws) <-> In t ts) ->
    reads_field f PTypes s (concat (map window ws)) [].

(** ** All fields. *)
Inductive reads_fields : list (fmt * pres) -> bytes -> bytes -> Prop :=
| rs_done : forall s, reads_fields [] s []
| rs_missing : forall fs s, Forall white s -> reads_fields fs s []
| rs_field : forall f p fs w c s o e o', Forall white w -> ~ white c -> reads_field f p (c :: s) o e -> reads_fields fs e o' ->
    reads_fields ((f, p) :: fs) (w ++ c :: s) (o ++ o').

(** The generic form: backslash, '#', white space, a length that is compared modulo 65536 (from 2^64 on it counts as
    2^64 - 1), and the octets. *)
Inductive reads_generic : bytes -> bytes -> Prop :=
| rg : forall w d h v l, w <> [] -> Forall white w -> numeral d v -> (h = [] \/ exists c r, h = c :: r /\ white c) -> loose_hex h l ->
    zlen l = Z.min v (2 ^ 64 - 1) mod 65536 -> reads_generic (92 :: 35 :: w ++ d ++ h) l.
