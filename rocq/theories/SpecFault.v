(** SpecFault.v: the packets on which wdns_parse_message never returns, and those on which it reads outside the packet. Both
    are described by the grammar of SpecLoose.v up to the place where it happens. *)
From Verif Require Import Base Lib SpecName SpecMessage SpecLoose.

(** Walking alpn ids over [n] octets from [i] on leads past the last octet of [m] before the [n] octets are used up. *)
Inductive alpn_off (m : bytes) : Z -> Z -> Prop :=
| ao_here : forall i n, 0 < n -> zlen m <= i -> alpn_off m i n
| ao_id : forall i n c, octets_at m i [c] -> alpn_off m (i + 1 + c) (n - 1 - c) -> alpn_off m i n.

(** Decoding a name at [i] leads exactly to the end of [m], or to its last octet and that starts a compression pointer. *)
Definition name_off (m : bytes) (i : Z) : Prop :=
  exists ls j, reaches m (zlen m) i ls j /\ zlen (concat (map (fun l => zlen l :: l) ls)) <= 254 /\
    (j = zlen m \/ j + 1 = zlen m /\ exists hi, octets_at m j [hi] /\ 192 <= hi).

(** [params_upto E m i n]: the SvcParams in the [n] octets at [i] are read up to one for which [E] holds of key, place and
    announced length of the value; the announced length is 65532 or more. *)
Inductive params_upto (E : bytes -> Z -> Z -> Z -> Prop) (m : bytes) : Z -> Z -> Prop :=
| pu_here : forall i n k0 k1 l1, octets_at m i [k0; k1; 255; l1] -> 252 <= l1 -> 4 <= n -> E m (k0 * 256 + k1) (i + 4) (65280 + l1) -> params_upto E m i n
| pu_param : forall i n kv, octets_at m i (param kv) -> param_ok (fst kv) (snd kv) -> zlen (snd kv) < 65532 -> zlen (param kv) <= n ->
    params_upto E m (i + zlen (param kv)) (n - zlen (param kv)) -> params_upto E m i n
| pu_wrapped : forall i n k0 k1 l1, octets_at m i [k0; k1; 255; l1] -> 253 <= l1 -> 4 <= n ->
    announced_ok m (k0 * 256 + k1) (i + 4) (65280 + l1) -> params_upto E m (i + (l1 - 252)) (n - (l1 - 252)) -> params_upto E m i n.

Section Upto.
  (** [N]: what happens at a name; [E]: what happens at a SvcParam. *)
  Context (N : bytes -> Z -> Prop) (E : bytes -> Z -> Z -> Z -> Prop).
  Inductive rdata_upto (m : bytes) : list fmt -> Z -> Z -> Prop :=
  | ru_name : forall fs i n, 0 < n -> N m i -> rdata_upto m (FName :: fs) i n
  | ru_params : forall fs i n, params_upto E m i n -> rdata_upto m (FParams :: fs) i n
  | ru_after_name : forall fs i n ls e, denotes m i ls -> zlen (wire ls) <= 255 -> extent m i e -> e <= n ->
      rdata_upto m fs (i + e) (n - e) -> rdata_upto m (FName :: fs) i n
  | ru_after : forall f fs i n l, to_end f = false -> field_octets f l -> octets_at m i l -> 0 < zlen l <= n ->
      rdata_upto m fs (i + zlen l) (n - zlen l) -> rdata_upto m (f :: fs) i n.
  Definition record_upto (m : bytes) (i : Z) : Prop :=
    exists ls e t0 t1 c0 c1 w x y z l0 l1, owner_at m i ls e /\ octets_at m (i + e) [t0; t1; c0; c1; w; x; y; z; l0; l1] /\
      i + e + 10 + (l0 * 256 + l1) <= zlen m /\ rdata_upto m (format_of (t0 * 256 + t1) (c0 * 256 + c1)) (i + e + 10) (l0 * 256 + l1).
  Definition entry_upto (sec : Z) (m : bytes) (i : Z) : Prop := i < zlen m /\ (N m i \/ sec <> 0 /\ record_upto m i).
  (** The sections are read up to an entry at which it happens; some entries of its section may come before it. *)
  Fixpoint sections_upto (secs : list (Z * Z)) (m : bytes) (i : Z) : Prop :=
    match secs with
    | [] => False
    | (sec, n) :: secs' =>
        (exists k rs j, 0 <= k < n /\ loose_entries sec m i k rs j /\ entry_upto sec m j) \/
        (exists rs j, loose_entries sec m i n rs j /\ sections_upto secs' m j)
    end.
  Definition message_upto (m : bytes) : Prop :=
    exists i0 i1 f0 f1 q0 q1 a0 a1 n0 n1 r0 r1, octets_at m 0 [i0; i1; f0; f1; q0; q1; a0; a1; n0; n1; r0; r1] /\
      sections_upto [(0, q0 * 256 + q1); (1, a0 * 256 + a1); (2, n0 * 256 + n1); (3, r0 * 256 + r1)] m 12.
End Upto.

(** A SvcParam that announces 65532 octets is taken to have length zero, for ever. *)
Definition hangs (m : bytes) : Prop := message_upto (fun _ _ => False) (fun m key i n => n = 65532 /\ announced_ok m key i n) m.
(** A name that runs into the end of the packet, or an alpn parameter whose announced value does. *)
Definition overreads (m : bytes) : Prop := message_upto name_off (fun m key i n => key = 1 /\ alpn_off m i n) m.
