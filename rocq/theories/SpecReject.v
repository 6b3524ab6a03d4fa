(** SpecReject.v: the packets that wdns_parse_message rejects, each with its return code: the grammar of SpecLoose.v up to the
    first place that does not fit, and what is wrong there. *)
From Verif Require Import Base Lib SpecName SpecMessage SpecLoose SpecFault.

(** The name at [i] cannot be decoded: after the labels [ls] the decoder stands at [j]. *)
Definition name_wrong (m : bytes) (i : Z) (e : res) : Prop :=
  exists ls j, reaches m (zlen m) i ls j /\ let len := zlen (concat (map (fun l => zlen l :: l) ls)) in len <= 254 /\
    ((exists c, octets_at m j [c] /\ 64 <= c <= 191 /\ e = res_invalid_length_octet) \/
     (exists hi lo, octets_at m j [hi; lo] /\ 192 <= hi /\ j <= ptr_target hi lo /\ e = res_invalid_compression_pointer) \/
     (exists c, octets_at m j [c] /\ 1 <= c <= 63 /\ 254 < len + 1 + c /\ e = res_name_overflow) \/
     (exists c, octets_at m j [c] /\ 1 <= c <= 63 /\ len + 1 + c <= 254 /\ zlen m < j + 1 + c /\ e = res_out_of_bounds)).

(** The SvcParams in the [n] octets at [i] are read up to one that is cut short, too long for the rdata, or has a bad value. *)
Inductive params_wrong (m : bytes) : Z -> Z -> res -> Prop :=
| pw_short : forall i n, 0 < n < 4 -> params_wrong m i n res_parse_error
| pw_long : forall i n k0 k1 l0 l1, octets_at m i [k0; k1; l0; l1] -> 4 <= n -> l0 * 256 + l1 < 65532 -> n < 4 + (l0 * 256 + l1) ->
    params_wrong m i n res_out_of_bounds
| pw_value : forall i n kv, octets_at m i (param kv) -> 0 <= fst kv < 65536 -> ~ param_ok (fst kv) (snd kv) -> zlen (snd kv) < 65532 ->
    zlen (param kv) <= n -> params_wrong m i n res_parse_error
| pw_announced : forall i n k0 k1 l1, octets_at m i [k0; k1; 255; l1] -> 252 <= l1 -> 4 <= n ->
    ~ announced_ok m (k0 * 256 + k1) (i + 4) (65280 + l1) -> ~ (k0 * 256 + k1 = 1 /\ alpn_off m (i + 4) (65280 + l1)) ->
    params_wrong m i n res_parse_error
| pw_param : forall i n kv e, octets_at m i (param kv) -> param_ok (fst kv) (snd kv) -> zlen (snd kv) < 65532 -> zlen (param kv) <= n ->
    params_wrong m (i + zlen (param kv)) (n - zlen (param kv)) e -> params_wrong m i n e
| pw_wrapped : forall i n k0 k1 l1 e, octets_at m i [k0; k1; 255; l1] -> 253 <= l1 -> 4 <= n ->
    announced_ok m (k0 * 256 + k1) (i + 4) (65280 + l1) -> params_wrong m (i + (l1 - 252)) (n - (l1 - 252)) e -> params_wrong m i n e.

(** The field of format [f] at [i], where [n] octets are left in the rdata, is wrong. *)
Definition field_wrong (m : bytes) (f : fmt) (i n : Z) (e : res) : Prop :=
  match f with
  | FName => name_wrong m i e \/ (exists ls x, denotes m i ls /\ zlen (wire ls) <= 255 /\ extent m i x /\ n < x /\ e = res_out_of_bounds)
  | FFixed k => n < k /\ e = res_parse_error
  | FString => exists c, octets_at m i [c] /\ n < c + 1 /\ e = res_parse_error
  | FStrings => exists ss c, Forall (fun s => zlen s <= 255) ss /\ let l := concat (map char_string ss) in
      octets_at m i (l ++ [c]) /\ zlen l < n < zlen l + c + 1 /\ e = res_parse_error
  | FRest => False
  | FPrefix6 => exists p, octets_at m i [p] /\
      (128 < p /\ e = res_out_of_bounds \/ p <= 128 /\ n < 1 + (128 - p + 7) / 8 /\ e = res_parse_error)
  | FTypes => exists ws, Forall (fun w => 1 <= zlen (snd w) <= 32) ws /\ let l := concat (map window ws) in let left := n - zlen l in
      octets_at m i l /\ e = res_out_of_bounds /\
      (left = 1 \/ 2 <= left /\ exists c, octets_at m (i + zlen l + 1) [c] /\ (c = 0 \/ 32 < c \/ left - 2 < c))
  | FParams => params_wrong m i n e
  end.

(** The [n] octets of rdata at [i] are wrong: in a field, or because octets are left behind the last one. *)
Inductive rdata_wrong (m : bytes) : list fmt -> Z -> Z -> res -> Prop :=
| rw_field : forall f fs i n e, 0 < n -> field_wrong m f i n e -> rdata_wrong m (f :: fs) i n e
| rw_left : forall i n, 0 < n -> rdata_wrong m [] i n res_out_of_bounds
| rw_after_name : forall fs i n ls x e, denotes m i ls -> zlen (wire ls) <= 255 -> extent m i x -> x <= n ->
    rdata_wrong m fs (i + x) (n - x) e -> rdata_wrong m (FName :: fs) i n e
| rw_after : forall f fs i n l e, to_end f = false -> field_octets f l -> octets_at m i l -> 0 < zlen l <= n ->
    rdata_wrong m fs (i + zlen l) (n - zlen l) e -> rdata_wrong m (f :: fs) i n e.

Definition entry_wrong (sec : Z) (m : bytes) (i : Z) (e : res) : Prop :=
  i < zlen m /\
  (name_wrong m i e \/
   exists ls x, owner_at m i ls x /\
    ((zlen m < i + x + 4 \/ sec <> 0 /\ zlen m < i + x + 10) /\ e = res_parse_error \/
     sec <> 0 /\ exists t0 t1 c0 c1 w v y z l0 l1, octets_at m (i + x) [t0; t1; c0; c1; w; v; y; z; l0; l1] /\ let rdlen := l0 * 256 + l1 in
      (zlen m < i + x + 10 + rdlen /\ e = res_overflow \/
       i + x + 10 + rdlen <= zlen m /\ rdata_wrong m (format_of (t0 * 256 + t1) (c0 * 256 + c1)) (i + x + 10) rdlen e))).
Fixpoint sections_wrong (secs : list (Z * Z)) (m : bytes) (i : Z) (e : res) : Prop :=
  match secs with
  | [] => False
  | (sec, n) :: secs' =>
      (exists k rs j, 0 <= k < n /\ loose_entries sec m i k rs j /\ entry_wrong sec m j e) \/
      (exists rs j, loose_entries sec m i n rs j /\ sections_wrong secs' m j e)
  end.
Definition message_wrong (m : bytes) (e : res) : Prop :=
  zlen m < 12 /\ e = res_len \/
  exists i0 i1 f0 f1 q0 q1 a0 a1 n0 n1 r0 r1, octets_at m 0 [i0; i1; f0; f1; q0; q1; a0; a1; n0; n1; r0; r1] /\
    sections_wrong [(0, q0 * 256 + q1); (1, a0 * 256 + a1); (2, n0 * 256 + n1); (3, r0 * 256 + r1)] m 12 e.
