(** SpecText.v: presentation format of rdata (RFC 1035 section 5, RFC 3597, RFC 4034, RFC 5155, RFC 9460), independently
    of the C code. *)
From Coq Require Strings.String.
From Verif Require Import Base Lib SpecName SpecMessage SpecFormat SpecTables Libc.

(** Tokens separated by [c]. *)
Fixpoint join_by (c : Z) (ts : list bytes) : bytes :=
  match ts with [] => [] | [t] => t | t :: ts => t ++ c :: join_by c ts end.

(** ** Quoted character-strings: double quote and backslash are escaped by a backslash, octets that are not printable are
    written as backslash and three decimal digits. *)
Definition quote_octet (c : Z) : bytes :=
  if (c =? 34) || (c =? 92) then [92; c]
  else if (32 <=? c) && (c <=? 126) then [c]
  else [92; 48 + c / 100; 48 + c / 10 mod 10; 48 + c mod 10].
Definition quoted (l : bytes) : bytes := [34] ++ concat (map quote_octet l) ++ [34].

(** ** Hexadecimal text of octets. *)
Inductive hex_text (upper : bool) : bytes -> bytes -> Prop :=
| ht_nil : hex_text upper [] []
| ht_cons : forall b h l s, hex_octet upper b h -> hex_text upper l s -> hex_text upper (b :: l) (h ++ s).

(** ** RR types: the registered mnemonic, or TYPE and the decimal number if there is none. *)
Definition type_text (n : Z) (s : bytes) : Prop :=
  mnemonic iana_types n s \/ ((forall m, ~ mnemonic iana_types n m) /\ exists d, decimal n d /\ s = lit "TYPE" ++ d).

(** Big-endian value of octets. *)
Definition be_value (l : bytes) : Z := fold_left (fun a b => a * 256 + b) l 0.

(** ** Type bit maps: type 256 * w + 8 * i + j is present if bit 2^(7-j) of octet i of window w is set. *)
Definition octet_types (base a : Z) : list Z :=
  map (fun j => base + j) (filter (fun j => Z.testbit a (7 - j)) [0; 1; 2; 3; 4; 5; 6; 7]).
Fixpoint map_types (base : Z) (l : bytes) : list Z :=
  match l with [] => [] | a :: l => octet_types base a ++ map_types (base + 8) l end.
Definition window_types (w : Z * bytes) : list Z := map_types (256 * fst w) (snd w).
Definition bitmap_types (ws : list (Z * bytes)) : list Z := concat (map window_types ws).

(** RFC 4034 section 4.1.2: windows in ascending order, each with 1..32 octets, the last one not zero. *)
Fixpoint canonical_from (k : Z) (ws : list (Z * bytes)) : Prop :=
  match ws with
  | [] => True
  | (w, l) :: ws => k <= w < 256 /\ bytes_ok l /\ 1 <= zlen l <= 32 /\ last l 0 <> 0 /\ canonical_from (w + 1) ws
  end.
Definition canonical (ws : list (Z * bytes)) : Prop := canonical_from 0 ws.

(** ** Service parameters: key name, and "=" and the value unless the key is no-default-alpn. *)
Definition key_text (k : Z) (s : bytes) : Prop :=
  mnemonic iana_svckeys k s \/ (7 <= k < 65535 /\ exists d, decimal k d /\ s = lit "key" ++ d).

(** RFC 9460 appendix A.1: inside a comma-separated list, comma and backslash are escaped by a backslash; the whole list
    is then written as a quoted character-string. *)
Definition list_octet (c : Z) : bytes := if (c =? 44) || (c =? 92) then [92; c] else [c].
Definition alpn_value_text (ids : list bytes) : bytes := quoted (join_by 44 (map (fun i => concat (map list_octet i)) ids)).

Inductive value_text : Z -> bytes -> bytes -> Prop :=
| vt_mandatory : forall ks ts, ks <> [] -> Forall2 key_text ks ts ->
    value_text 0 (concat (map u16 ks)) (join_by 44 ts)
| vt_alpn : forall ids, ids <> [] -> Forall (fun s => zlen s <= 255) ids ->
    value_text 1 (concat (map char_string ids)) (alpn_value_text ids)
| vt_port : forall p d, 0 <= p < 65536 -> decimal p d -> value_text 3 (u16 p) d
| vt_ipv4hint : forall az ts, az <> [] -> Forall2 ipv4_text az ts -> value_text 4 (concat az) (join_by 44 ts)
| vt_ech : forall l, value_text 5 l (base64 l)
| vt_ipv6hint : forall az ts, az <> [] -> Forall2 ipv6_text az ts -> Forall (fun a => zlen a = 16) az ->
    value_text 6 (concat az) (join_by 44 ts)
| vt_other : forall k l, 7 <= k < 65535 -> value_text k l (quoted l).

Inductive param_text : Z * bytes -> bytes -> Prop :=
| pt_flag : forall s, key_text 2 s -> param_text (2, []) s
| pt_value : forall k v s t, key_text k s -> value_text k v t -> param_text (k, v) (s ++ [61] ++ t).

(** Values for which this text is defined: address and key lists are not empty, and no key list names the reserved key. *)
Definition plain_param (kv : Z * bytes) : Prop :=
  (fst kv = 0 -> exists ks, ks <> [] /\ Forall (fun k => 0 <= k < 65535) ks /\ snd kv = concat (map u16 ks)) /\
  (fst kv = 4 -> snd kv <> []) /\ (fst kv = 6 -> snd kv <> []).

Definition plain_values (vs : list fval) : Prop :=
  forall l ps, In (VOctets l) vs -> l = concat (map param ps) -> Forall (fun kv => param_ok (fst kv) (snd kv)) ps -> Forall plain_param ps.

(** ** Fields *)
Inductive pres : Type :=
| PName | PDec | PHex | PBase64 | PQuoted | PPrefix6 | PSalt | PHash | PIPv4 | PIPv6 | PEui | PString | PStrings
| PType | PTypes | PParams.

(** [field_tokens p v ts]: the field value [v] is written as the tokens [ts]. *)
Inductive field_tokens : pres -> fval -> list bytes -> Prop :=
| ft_name : forall ls, field_tokens PName (VName ls) [pres_name ls]
| ft_dec : forall l s, decimal (be_value l) s -> field_tokens PDec (VOctets l) [s]
| ft_hex : forall l s, hex_text true l s -> field_tokens PHex (VOctets l) [s]
| ft_base64 : forall l, field_tokens PBase64 (VOctets l) [base64 l]
| ft_quoted : forall l, field_tokens PQuoted (VOctets l) [quoted l]
| ft_prefix_only : field_tokens PPrefix6 (VOctets [128]) [lit "128"]
| ft_prefix : forall p a s t, p < 128 -> decimal p s -> ipv6_text (repeat 0 (Z.to_nat (16 - zlen a)) ++ a) t ->
    field_tokens PPrefix6 (VOctets (p :: a)) [s; t]
| ft_no_salt : field_tokens PSalt (VOctets (char_string [])) [lit "-"]
| ft_salt : forall l s, l <> [] -> hex_text false l s -> field_tokens PSalt (VOctets (char_string l)) [s]
| ft_no_hash : field_tokens PHash (VOctets (char_string [])) [lit "0"]
| ft_hash : forall l, l <> [] -> field_tokens PHash (VOctets (char_string l)) [base32hex l]
| ft_ipv4 : forall a s, ipv4_text a s -> field_tokens PIPv4 (VOctets a) [s]
| ft_ipv6 : forall a s, ipv6_text a s -> field_tokens PIPv6 (VOctets a) [s]
| ft_eui : forall l hs, Forall2 (hex_octet false) l hs -> field_tokens PEui (VOctets l) [join_by 45 hs]
| ft_string : forall l, field_tokens PString (VOctets (char_string l)) [quoted l]
| ft_strings : forall ss, field_tokens PStrings (VOctets (concat (map char_string ss))) (map quoted ss)
| ft_type : forall l s, type_text (be_value l) s -> field_tokens PType (VOctets l) [s]
| ft_types : forall ws ts, Forall2 type_text (bitmap_types ws) ts -> field_tokens PTypes (VOctets (concat (map window ws))) ts
| ft_params : forall ps ts, Forall2 param_text ps ts -> field_tokens PParams (VOctets (concat (map param ps))) ts.

(** How the fields of each type are written; the fields are those of [rr_formats] (SpecMessage.v). *)
Definition rr_presentation : list (Z * list pres) := [
  (1,  [PIPv4]); (2,  [PName]); (3,  [PName]); (4,  [PName]); (5,  [PName]);
  (6,  [PName; PName; PDec; PDec; PDec; PDec; PDec]);
  (7,  [PName]); (8,  [PName]); (9,  [PName]); (10, [PHex]); (11, [PDec; PDec; PHex]); (12, [PName]);
  (13, [PString; PString]); (14, [PName; PName]); (15, [PDec; PName]); (16, [PStrings]); (17, [PName; PName]);
  (18, [PDec; PName]); (19, [PString]); (20, [PString; PString]); (21, [PDec; PName]);
  (24, [PDec; PDec; PDec; PDec; PDec; PDec; PDec; PName; PHex]);
  (26, [PDec; PName; PName]); (28, [PIPv6]); (30, [PName; PHex]); (33, [PDec; PDec; PDec; PName]);
  (35, [PDec; PDec; PString; PString; PString; PName]); (36, [PDec; PName]); (38, [PPrefix6; PName]); (39, [PName]);
  (43, [PDec; PDec; PDec; PHex]); (46, [PType; PDec; PDec; PDec; PDec; PDec; PDec; PName; PBase64]);
  (47, [PName; PTypes]); (48, [PDec; PDec; PDec; PBase64]); (50, [PDec; PDec; PDec; PSalt; PHash; PTypes]);
  (51, [PDec; PDec; PDec; PSalt]); (52, [PDec; PDec; PDec; PHex]); (59, [PDec; PDec; PDec; PHex]);
  (60, [PDec; PDec; PDec; PBase64]); (61, [PBase64]); (62, [PDec; PDec; PTypes]); (64, [PDec; PName; PParams]);
  (65, [PDec; PName; PParams]); (99, [PStrings]); (108, [PEui]); (109, [PEui]); (256, [PDec; PDec; PQuoted]);
  (257, [PDec; PString; PQuoted])
].
Definition presentation_of (t : Z) : list pres :=
  match find (fun e => fst e =? t) rr_presentation with Some (_, ps) => ps | None => [] end.

(** The types (and classes) whose rdata has fields and is written field by field. *)
Definition has_fields (t c : Z) : bool :=
  match find (fun e => fst e =? t) rr_formats with Some (_, (in_only, _)) => negb in_only || (c =? 1) | None => false end.

(** [fields_tokens ps vs ts]: values of the first fields (trailing fields may be absent) and all their tokens. *)
Inductive fields_tokens : list pres -> list fval -> list bytes -> Prop :=
| fs_end : forall ps, fields_tokens ps [] []
| fs_field : forall p ps v vs ts ts', field_tokens p v ts -> fields_tokens ps vs ts' -> fields_tokens (p :: ps) (v :: vs) (ts ++ ts').

(** The text of rdata with the field values [vs]: all tokens, separated by one blank. *)
Definition rdata_text (t : Z) (vs : list fval) (s : bytes) : Prop :=
  exists ts, fields_tokens (presentation_of t) vs ts /\ s = join_by 32 ts.

(** RFC 3597 section 5: \# length and the octets in hexadecimal (each followed by a blank here). *)
Inductive generic_hex : bytes -> bytes -> Prop :=
| gh_nil : generic_hex [] []
| gh_cons : forall b h l s, hex_octet false b h -> generic_hex l s -> generic_hex (b :: l) (h ++ [32] ++ s).
Definition generic_text (l s : bytes) : Prop :=
  exists d h, decimal (zlen l) d /\ generic_hex l h /\ s = lit "\# " ++ d ++ [32] ++ h.

(** Printable ASCII. *)
Definition printable (s : bytes) : Prop := Forall (fun c => 32 <= c <= 126) s.

(** ** Rdata whose text can be read back *)

(** Service parameters: the text is defined ([plain_param]), an alpn list does not end with an empty id, and the ech octets
    are neither absent nor more than 189. *)
Definition readable_param (kv : Z * bytes) : Prop :=
  plain_param kv /\
  (fst kv = 1 -> forall ids, snd kv = concat (map char_string ids) -> last ids [] <> []) /\
  (fst kv = 5 -> 1 <= zlen (snd kv) <= 189).

(** The value [v] of a field, followed by the values [next]. *)
Definition readable (p : pres) (v : fval) (next : list fval) : Prop :=
  match p, v with
  | PType, VOctets l => be_value l <> 0
  | PTypes, VOctets l => exists ws, canonical ws /\ l = concat (map window ws)
  | PPrefix6, VOctets (n :: _) => (n = 128 -> exists ls, next = [VName ls]) /\ (n = 0 -> next = [])
  | PParams, VOctets l => forall ps, l = concat (map param ps) -> Forall (fun kv => param_ok (fst kv) (snd kv)) ps -> Forall readable_param ps
  | _, _ => True
  end.
Fixpoint all_readable (ps : list pres) (vs : list fval) : Prop :=
  match ps, vs with p :: ps, v :: vs => readable p v vs /\ all_readable ps vs | _, _ => True end.

(** Hexadecimal octets with white space before, between and behind them. *)
Definition white (c : Z) : Prop := c = 32 \/ 9 <= c <= 13.
Inductive spaced_hex : bytes -> bytes -> Prop :=
| sh_nil : spaced_hex [] []
| sh_white : forall c l s, white c -> spaced_hex l s -> spaced_hex l (c :: s)
| sh_octet : forall h k x y l s, hex_digit h x -> hex_digit k y -> spaced_hex l s -> spaced_hex (16 * x + y :: l) (h :: k :: s).

(** ** Rdata that stops inside a name: the fields before a name field are complete, then come one or more labels (less than
    255 octets) and no root octet. *)
Definition ends_in_name (fs : list fmt) (l : bytes) : Prop :=
  exists before after vs ls, fs = before ++ FName :: after /\ Forall2 (fun f v =>
      match v with VName ns => f = FName /\ valid_name ns | VOctets o => field_octets f o /\ o <> [] end) before vs /\
    valid_labels ls /\ ls <> [] /\ zlen (prewire ls) < 255 /\ l = canon vs ++ prewire ls.

(** Printable ASCII in lines. *)
Definition printable_lines (s : bytes) : Prop := Forall (fun c => 32 <= c <= 126 \/ c = 10) s.

(** ** Texts that are safe to read as rdata of type t: no name ends in a backslash (none is followed by a blank or by the end
    of the text); hexadecimal and generic text does not end in white space; base64 text has no '{', SvcParams neither '{' nor
    its escape \123. *)
Definition text_safe (t : Z) (s : bytes) : Prop :=
  (In PName (presentation_of t) -> forall a b, s = a ++ 92 :: b -> exists c r, b = c :: r /\ c <> 32 /\ c <> 9 /\ c <> 13 /\ c <> 10) /\
  (In PHex (presentation_of t) \/ In PSalt (presentation_of t) \/ presentation_of t = [] -> s = [] \/ ~ white (last s 0)) /\
  (In PBase64 (presentation_of t) -> ~ In 123 s) /\
  (In PParams (presentation_of t) -> ~ In 123 s /\ forall a b, s <> a ++ [92; 49; 50; 51] ++ b).
