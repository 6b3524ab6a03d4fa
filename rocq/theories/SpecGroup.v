(** SpecGroup.v: what it means that the RRsets of a section group its RRs; in terms of the API structures only. *)
From Verif Require Import Base Lib ModelParse.

Definition lower_octet (c : Z) : Z := if (65 <=? c) && (c <=? 90) then c + 32 else c.
Definition lower_octets (l : bytes) : bytes := map lower_octet l.

(** The RR and the RRset have the same type, class and owner name (up to ASCII case). *)
Definition belongs (r : rr) (s : rrset) : bool :=
  (if list_eq_dec Z.eq_dec (lower_octets (rr_name r)) (lower_octets (rs_name s)) then true else false) &&
  (rr_type r =? rs_type s) && (rr_class r =? rs_class s).

Definition same_key (s t : rrset) : Prop :=
  lower_octets (rs_name s) = lower_octets (rs_name t) /\ rs_type s = rs_type t /\ rs_class s = rs_class t.

(** The RRs of the section that belong to [s], in order of arrival. *)
Definition rrs_of (a : rrset_array) (s : rrset) : list rr := filter (fun r => belongs r s) (a_rrs a).

Definition partition_ok (a : rrset_array) : Prop :=
  (* every RR belongs to an RRset *)
  (forall r, In r (a_rrs a) -> exists s, In s (a_rrsets a) /\ belongs r s = true) /\
  (* no two RRsets of the section have the same key *)
  (forall i j s t, nth_error (a_rrsets a) i = Some s -> nth_error (a_rrsets a) j = Some t -> same_key s t -> i = j) /\
  (* an RRset holds exactly the rdata of its RRs, in order, at least one *)
  (forall s, In s (a_rrsets a) -> rrs_of a s <> [] /\ map Some (rs_rdatas s) = map rr_rdata (rrs_of a s)).

Definition ttl_is_min (a : rrset_array) : Prop :=
  forall s, In s (a_rrsets a) ->
    (exists r, In r (rrs_of a s) /\ rr_ttl r = rs_ttl s) /\ (forall r, In r (rrs_of a s) -> rs_ttl s <= rr_ttl r).

(** Question section: one RRset per RR, same key, no rdata, ttl 0. *)
Definition questions_ok (a : rrset_array) : Prop :=
  Forall (fun r => rr_ttl r = 0 /\ rr_rdata r = None) (a_rrs a) /\
  a_rrsets a = map (fun r => {| rs_name := rr_name r; rs_type := rr_type r; rs_class := rr_class r; rs_ttl := 0; rs_rdatas := [] |}) (a_rrs a).
