(** SpecLoose.v: the grammar of SpecMessage.v, extended by what wdns_parse_message accepts beyond it: a SvcParam whose
    announced value length is 65533, 65534 or 65535. The sum of the length and the four octets of the header is taken modulo
    65536, so such a parameter is taken to be 1, 2 or 3 octets long, and the next one is read from inside its header. *)
From Verif Require Import Base Lib SpecName SpecMessage.

(** Walking alpn ids by their length octets, over exactly [n] octets from [i] on; only the length octets are looked at. *)
Inductive alpn_walk (m : bytes) : Z -> Z -> Prop :=
| aw_end : forall i, alpn_walk m i 0
| aw_id : forall i n c, octets_at m i [c] -> 1 + c <= n -> alpn_walk m (i + 1 + c) (n - 1 - c) -> alpn_walk m i n.
(** What is asked of a value that is announced to be longer than the parameter: [n] octets from [i] on, mostly not there. *)
Definition announced_ok (m : bytes) (key i n : Z) : Prop :=
  0 <= key < 65535 /\ (key = 0 -> exists k, n = 2 * k) /\ (key = 1 -> n <> 0 /\ alpn_walk m i n) /\ (key = 2 -> n = 0) /\
  (key = 3 -> n = 2) /\ (key = 4 -> exists k, n = 4 * k) /\ (key = 6 -> exists k, n = 16 * k).

(** [loose_params m i n]: the [n] octets at [i] are read as SvcParams. *)
Inductive loose_params (m : bytes) : Z -> Z -> Prop :=
| lp_end : forall i, loose_params m i 0
| lp_param : forall i n kv, octets_at m i (param kv) -> param_ok (fst kv) (snd kv) -> zlen (snd kv) < 65532 -> zlen (param kv) <= n ->
    loose_params m (i + zlen (param kv)) (n - zlen (param kv)) -> loose_params m i n
| lp_wrapped : forall i n k0 k1 l1, octets_at m i [k0; k1; 255; l1] -> 253 <= l1 -> 4 <= n ->
    announced_ok m (k0 * 256 + k1) (i + 4) (65280 + l1) -> loose_params m (i + (l1 - 252)) (n - (l1 - 252)) -> loose_params m i n.

(** The rest is SpecMessage.v with [loose_params] for the SvcParams. *)
Inductive loose_rdata (m : bytes) : list fmt -> Z -> Z -> list fval -> Prop :=
| lo_end : forall fs i, loose_rdata m fs i 0 []
| lo_name : forall fs i n ls e vs, denotes m i ls -> zlen (wire ls) <= 255 -> extent m i e -> e <= n ->
    loose_rdata m fs (i + e) (n - e) vs -> loose_rdata m (FName :: fs) i n (VName ls :: vs)
| lo_octets : forall f fs i n l vs, f <> FParams -> field_octets f l -> octets_at m i l -> 0 < zlen l <= n ->
    (to_end f = true -> zlen l = n) ->
    loose_rdata m fs (i + zlen l) (n - zlen l) vs -> loose_rdata m (f :: fs) i n (VOctets l :: vs)
| lo_params : forall fs i n l, octets_at m i l -> zlen l = n -> 0 < n -> loose_params m i n -> loose_rdata m (FParams :: fs) i n [VOctets l].

Definition loose_record (m : bytes) (i : Z) (r : srr) (n : Z) : Prop :=
  exists e t0 t1 c0 c1 w x y z l0 l1 vs, owner_at m i (s_name r) e /\
    octets_at m (i + e) [t0; t1; c0; c1; w; x; y; z; l0; l1] /\
    s_type r = t0 * 256 + t1 /\ s_class r = c0 * 256 + c1 /\
    s_ttl r = w * 16777216 + x * 65536 + y * 256 + z /\
    let rdlen := l0 * 256 + l1 in
    i + e + 10 + rdlen <= zlen m /\ loose_rdata m (format_of (s_type r) (s_class r)) (i + e + 10) rdlen vs /\
    s_data r = Some vs /\ n = e + 10 + rdlen.
Definition loose_entry (sec : Z) : bytes -> Z -> srr -> Z -> Prop := if sec =? 0 then question_at else loose_record.

Inductive loose_entries (sec : Z) (m : bytes) : Z -> Z -> list srr -> Z -> Prop :=
| ln_done : forall i, loose_entries sec m i 0 [] i
| ln_cut : forall n, 0 < n -> loose_entries sec m (zlen m) n [] (zlen m)
| ln_more : forall i n r k rs j, 0 < n -> i < zlen m -> loose_entry sec m i r k -> loose_entries sec m (i + k) (n - 1) rs j ->
    loose_entries sec m i n (r :: rs) j.

Definition loose_message (m : bytes) (s : smsg) : Prop :=
  exists i0 i1 f0 f1 q0 q1 a0 a1 n0 n1 r0 r1 j1 j2 j3 j4,
    octets_at m 0 [i0; i1; f0; f1; q0; q1; a0; a1; n0; n1; r0; r1] /\
    sm_id s = i0 * 256 + i1 /\ sm_flags s = f0 * 256 + f1 /\
    loose_entries 0 m 12 (q0 * 256 + q1) (sm_qd s) j1 /\
    loose_entries 1 m j1 (a0 * 256 + a1) (sm_an s) j2 /\
    loose_entries 2 m j2 (n0 * 256 + n1) (sm_ns s) j3 /\
    loose_entries 3 m j3 (r0 * 256 + r1) (sm_ar s) j4.
