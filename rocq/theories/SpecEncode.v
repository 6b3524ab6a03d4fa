(** SpecEncode.v: abstract messages and their uncompressed wire encoding (RFC 1035 section 4.1), independently of the
    C code. *)
From Verif Require Import Base Lib SpecName SpecMessage.

(** Field values that fit the fields [fs]; trailing fields may be absent; a field that extends to the end of the rdata
    is the last one. *)
Inductive wf_values : list fmt -> list fval -> Prop :=
| wv_end : forall fs, wf_values fs []
| wv_name : forall fs ls vs, valid_name ls -> wf_values fs vs -> wf_values (FName :: fs) (VName ls :: vs)
| wv_octets : forall f fs l vs, field_octets f l -> bytes_ok l -> l <> [] -> (to_end f = true -> vs = []) ->
    wf_values fs vs -> wf_values (f :: fs) (VOctets l :: vs).

Definition wf_owner (r : srr) : Prop := valid_name (s_name r) /\ 0 <= s_type r < 65536 /\ 0 <= s_class r < 65536.
Definition wf_question (r : srr) : Prop := wf_owner r /\ s_ttl r = 0 /\ s_data r = None.
Definition wf_record (r : srr) : Prop :=
  wf_owner r /\ 0 <= s_ttl r < 2 ^ 32 /\
  exists vs, s_data r = Some vs /\ wf_values (format_of (s_type r) (s_class r)) vs /\ zlen (canon vs) < 65536.
Definition wf_msg (s : smsg) : Prop :=
  0 <= sm_id s < 65536 /\ 0 <= sm_flags s < 65536 /\
  Forall wf_question (sm_qd s) /\ Forall wf_record (sm_an s) /\ Forall wf_record (sm_ns s) /\ Forall wf_record (sm_ar s) /\
  zlen (sm_qd s) < 65536 /\ zlen (sm_an s) < 65536 /\ zlen (sm_ns s) < 65536 /\ zlen (sm_ar s) < 65536.

Definition encode_question (r : srr) : bytes := wire (s_name r) ++ u16 (s_type r) ++ u16 (s_class r).
Definition encode_record (r : srr) : bytes :=
  let d := match s_data r with Some vs => canon vs | None => [] end in
  wire (s_name r) ++ (u16 (s_type r) ++ u16 (s_class r) ++ u32 (s_ttl r) ++ u16 (zlen d)) ++ d.
Definition encode_header (s : smsg) : bytes :=
  u16 (sm_id s) ++ u16 (sm_flags s) ++ u16 (zlen (sm_qd s)) ++ u16 (zlen (sm_an s)) ++ u16 (zlen (sm_ns s)) ++ u16 (zlen (sm_ar s)).
Definition encode (s : smsg) : bytes :=
  encode_header s ++ concat (map encode_question (sm_qd s)) ++ concat (map encode_record (sm_an s)) ++
  concat (map encode_record (sm_ns s)) ++ concat (map encode_record (sm_ar s)).
