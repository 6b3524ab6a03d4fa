(** SpecParsed.v: what a parsed message must contain, as a function of the abstract message. Only the record types of
    the API ([rr], [rrset], [rrset_array], [message]) are taken from the model. *)
From Verif Require Import Base Lib SpecName SpecMessage ModelParse.

(** The rdata octets an API user sees: the canonical form; the API's length field has 16 bits. *)
Definition stored (vs : list fval) : bytes := firstn (Z.to_nat (zlen (canon vs) mod 65536)) (canon vs).

(** One RR as an API record. *)
Definition rr_of (r : srr) : rr :=
  {| rr_name := wire (s_name r); rr_type := s_type r; rr_class := s_class r; rr_ttl := s_ttl r;
     rr_rdata := option_map stored (s_data r) |}.

(** ** RRsets *)

(** Two RRs belong together: same owner up to ASCII case, same type, same class. *)
Definition key (r : srr) : lname * Z * Z := (lower_name (s_name r), s_type r, s_class r).
Definition key_eq_dec : forall a b : lname * Z * Z, {a = b} + {a <> b}.
Proof. repeat decide equality. Defined.
Definition same (a b : srr) : bool := if key_eq_dec (key a) (key b) then true else false.

(** The first RR of each RRset, in order of appearance ([seen]: RRs before). *)
Fixpoint leaders (seen rs : list srr) : list srr :=
  match rs with
  | [] => []
  | r :: rs' => if existsb (same r) seen then leaders (seen ++ [r]) rs' else r :: leaders (seen ++ [r]) rs'
  end.

Definition members (r : srr) (rs : list srr) : list srr := filter (same r) rs.
Definition min_ttl (r : srr) (rs : list srr) : Z := fold_right Z.min (s_ttl r) (map s_ttl rs).
Definition data_of (r : srr) : bytes := match s_data r with Some vs => stored vs | None => [] end.

(** The RRset led by [r] in the section with RRs [rs]. *)
Definition set_of (rs : list srr) (r : srr) : rrset :=
  {| rs_name := wire (s_name r); rs_type := s_type r; rs_class := s_class r;
     rs_ttl := min_ttl r (members r rs); rs_rdatas := map data_of (members r rs) |}.

Definition section_of (rs : list srr) : rrset_array :=
  {| a_rrs := map rr_of rs; a_rrsets := map (set_of rs) (leaders [] rs) |}.

(** The question section: one RRset without rdata per entry. *)
Definition question_set (r : srr) : rrset :=
  {| rs_name := wire (s_name r); rs_type := s_type r; rs_class := s_class r; rs_ttl := s_ttl r; rs_rdatas := [] |}.
Definition question_of (rs : list srr) : rrset_array :=
  {| a_rrs := map rr_of rs; a_rrsets := map question_set rs |}.

(** ** EDNS *)

(** All entries with their section number, in message order. *)
Definition entries (s : smsg) : list (Z * srr) :=
  map (pair 0) (sm_qd s) ++ map (pair 1) (sm_an s) ++ map (pair 2) (sm_ns s) ++ map (pair 3) (sm_ar s).

Definition is_opt (r : srr) : bool := s_type r =? 41.

Fixpoint first_opt (l : list (Z * srr)) : option srr :=
  match l with [] => None | (_, r) :: l' => if is_opt r then Some r else first_opt l' end.
Fixpoint without_first_opt (l : list (Z * srr)) : list (Z * srr) :=
  match l with [] => [] | (k, r) :: l' => if is_opt r then l' else (k, r) :: without_first_opt l' end.
Definition in_section (k : Z) (l : list (Z * srr)) : list srr := map snd (filter (fun e => fst e =? k) l).

(** RFC 6891 section 6.1.3: class = UDP payload size, TTL = extended rcode (8), version (8), flags (16). *)
Definition edns_of (o : option srr) : edns :=
  match o with
  | None => {| e_present := false; e_version := 0; e_flags := 0; e_size := 0; e_options := None |}
  | Some r => {| e_present := true; e_version := s_ttl r / 65536 mod 256; e_flags := s_ttl r mod 65536;
                 e_size := s_class r; e_options := option_map stored (s_data r) |}
  end.

(** The rcode as this library composes it: the extended bits are put at 2^8 and up. *)
Definition rcode_of (flags : Z) (o : option srr) : Z :=
  flags mod 16 + match o with None => 0 | Some r => 256 * (s_ttl r / 16777216) end.
(** RFC 6891: the extended rcode is the upper 8 bits of a 12-bit rcode. *)
Definition rfc_rcode (flags : Z) (o : option srr) : Z :=
  flags mod 16 + match o with None => 0 | Some r => 16 * (s_ttl r / 16777216) end.

(** ** The parsed message *)
Definition parsed_entries (id flags : Z) (l : list (Z * srr)) : message :=
  let rest := without_first_opt l in
  {| m_qd := question_of (in_section 0 rest); m_an := section_of (in_section 1 rest);
     m_ns := section_of (in_section 2 rest); m_ar := section_of (in_section 3 rest);
     m_edns := edns_of (first_opt l); m_id := id; m_flags := flags; m_rcode := rcode_of flags (first_opt l) |}.

Definition parsed (s : smsg) : message := parsed_entries (sm_id s) (sm_flags s) (entries s).
