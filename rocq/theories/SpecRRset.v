(** SpecRRset.v: RRsets, their serialised form and canonical order, independently of the C code. *)
From Coq Require Import Permutation Sorted.
From Verif Require Import Base Lib SpecName SpecMessage ModelParse ModelRRset.

(** An RRset whose components fit the C types of wdns.h.in:222-229: uint8_t name.len, uint16_t type, class and n_rdatas,
    uint32_t ttl, uint16_t rdata lengths. *)
Definition wf_rrset (s : rrset) : Prop :=
  bytes_ok (rs_name s) /\ zlen (rs_name s) < 256 /\ 0 <= rs_type s < 65536 /\ 0 <= rs_class s < 65536 /\
  0 <= rs_ttl s < 2 ^ 32 /\ zlen (rs_rdatas s) < 65536 /\ Forall (fun d => bytes_ok d /\ zlen d < 65536) (rs_rdatas s).

(** The n octets of the number v in host byte order. *)
Fixpoint digits (n : nat) (v : Z) : bytes := match n with O => [] | S k => v mod 256 :: digits k (v / 256) end.
Definition host (big : bool) (n : nat) (v : Z) : bytes := if big then rev (digits n v) else digits n v.

(** The serialised form: name length, name, type, class, ttl, number of rdatas; each rdata preceded by its length. *)
Definition serial_rdata (big : bool) (d : bytes) : bytes := host big 2 (zlen d) ++ d.
Definition serial (big : bool) (s : rrset) : bytes :=
  (zlen (rs_name s) :: rs_name s) ++ host big 2 (rs_type s) ++ host big 2 (rs_class s) ++ host big 4 (rs_ttl s) ++
  host big 2 (zlen (rs_rdatas s)) ++ concat (map (serial_rdata big) (rs_rdatas s)).

(** The C structure that holds the RRset, and a cleared one. *)
Definition holds (o : rrset_obj) (s : rrset) : Prop :=
  o_name_len o = zlen (rs_name s) /\ o_name o = Some (rs_name s) /\ o_type o = rs_type s /\ o_class o = rs_class s /\
  o_ttl o = rs_ttl s /\ o_n_rdatas o = zlen (rs_rdatas s) /\ o_rdatas o = Some (map Some (rs_rdatas s)).
Definition cleared (o : rrset_obj) : Prop := o_name o = None /\ o_rdatas o = None /\ o_n_rdatas o = 0.

(** Order of rdatas: shorter first, then by the first differing octet. *)
Inductive octets_lt : bytes -> bytes -> Prop :=
| ol_here : forall x y a b, x < y -> octets_lt (x :: a) (y :: b)
| ol_next : forall x a b, octets_lt a b -> octets_lt (x :: a) (x :: b).
Definition rdata_le (a b : bytes) : Prop := zlen a < zlen b \/ (zlen a = zlen b /\ (a = b \/ octets_lt a b)).

(** ISO C 7.22.5.2: the array after qsort holds the same elements, in ascending order according to the comparison. *)
Definition qsort_result (cmp : bytes -> bytes -> Z) (l l' : list bytes) : Prop :=
  Permutation l l' /\ StronglySorted (fun a b => cmp a b <= 0) l'.

(** Case-folding of rdata: only the names are folded. *)
Definition lower_val (v : fval) : fval := match v with VName ls => VName (lower_name ls) | VOctets l => VOctets l end.

(** Fields that end by themselves, not with the rdata. *)
Definition delimited (f : fmt) : Prop := match f with FStrings | FRest | FTypes | FParams => False | _ => True end.

(** The types RFC 4034 section 6.2 (item 3, as amended by RFC 6840 section 5.1) lists: NS MD MF CNAME SOA MB MG MR PTR
    MINFO MX RP AFSDB RT SIG PX NXT NAPTR KX SRV DNAME A6. *)
Definition rfc4034_types : list Z := [2; 3; 4; 5; 6; 7; 8; 9; 12; 14; 15; 17; 18; 21; 24; 26; 30; 33; 35; 36; 38; 39].

(** Same octets up to lower-casing some of the capital letters. *)
Definition lowered (a b : Z) : Prop := b = a \/ (65 <= a <= 90 /\ b = a + 32).
