(** ModelZonefile.v: libmy/zonefile.c over any ldns parser. *)
From Verif Require Import Base Libc.

(** A parsed record as far as it matters: its type, owner, SOA serial (for SOA records) and identity. *)
Record zrr := { z_type : Z; z_owner : bytes; z_serial : Z; z_id : Z }.
(** What one call of ldns_rr_new_frm_fp_l finds: a record; a comment, blank line or directive (SYNTAX_EMPTY, SYNTAX_TTL, SYNTAX_ORIGIN); an error. *)
Inductive event := Rec (r : zrr) | Blank | Bad (status : Z).
(** A file: what the calls will find, whether the parser meets the end of file together with the last of them (no newline at the end), feof(). *)
Record zstream := { zs_events : list event; zs_tight : bool; zs_feof : bool }.
(** ldns_rr_new_frm_fp_l; at the end of the file it returns LDNS_STATUS_SYNTAX_EMPTY and feof becomes true (ldns 1.6 and later). *)
Definition parse (f : zstream) : event * zstream :=
  match zs_events f with
  | [] => (Blank, {| zs_events := []; zs_tight := zs_tight f; zs_feof := true |})
  | e :: l => (e, {| zs_events := l; zs_tight := zs_tight f; zs_feof := match l with [] => zs_tight f | _ :: _ => false end |})
  end.
Definition LDNS_STATUS_OK := 0.
Definition LDNS_STATUS_ERR := 1.
Definition LDNS_RR_TYPE_SOA := 6.

(** struct zonefile, zonefile.c:13-24. The memory management (two origins are leaked) is not modelled. *)
Record zonefile := { zf_fp : zstream; zf_eof : bool; zf_valid : bool; zf_domain : bytes; zf_soa : option zrr; zf_count : Z }.

(** The loop of read_soa, :32-45. *)
Fixpoint soa_loop (fuel : nat) (f : zstream) : outcome (event * zstream) :=
  match fuel with
  | O => NoFuel
  | S fuel => let '(e, f') := parse f in match e with Blank => soa_loop fuel f' | _ => Ok (e, f') end
  end.
(** zonefile_init_fname, :66-95, when the file could be opened, with read_soa, :27-63; None: NULL. *)
Definition zonefile_init (fuel : nat) (f : zstream) : outcome (option zonefile) :=
  '(e, f') <- soa_loop fuel f ;;
  match e with
  | Rec r => if z_type r =? LDNS_RR_TYPE_SOA
             then Ok (Some {| zf_fp := f'; zf_eof := false; zf_valid := true; zf_domain := z_owner r; zf_soa := Some r; zf_count := 1 |})
             else Ok None
  | _ => Ok None
  end.
(** How the file is opened, :70-83: fopen(fname) or popen(command). *)
Inductive opened := Fopen (fname : bytes) | Popen (command : bytes).
Definition open_how (fname : bytes) : opened :=
  let n := length fname in
  if (3 <=? n)%nat && (nth (n - 3) fname 0 =? 46) && (nth (n - 2) fname 0 =? 103) && (nth (n - 1) fname 0 =? 122)
  then Popen (lit "zcat " ++ fname) else Fopen fname.
(** zonefile_get_domain, _get_count, _get_serial, :119-137. Without an rr_soa the assertion fails (or, with an ldns that does not check, NULL is read). *)
Definition zonefile_get_domain (z : zonefile) : bytes := zf_domain z.
Definition zonefile_get_count (z : zonefile) : Z := zf_count z.
Definition zonefile_get_serial (z : zonefile) : outcome Z := match zf_soa z with Some r => Ok (z_serial r) | None => UB AssertFail end.

(** The loop of zonefile_read, :155-184; [out]: *out before. *)
Fixpoint read_loop (fuel : nat) (z : zonefile) (out : option zrr) : outcome (Z * option zrr * zonefile) :=
  match fuel with
  | O => NoFuel
  | S fuel =>
    if zs_feof (zf_fp z) then
      Ok (LDNS_STATUS_OK, None, {| zf_fp := zf_fp z; zf_eof := true; zf_valid := zf_valid z; zf_domain := zf_domain z; zf_soa := zf_soa z; zf_count := zf_count z |})
    else
      let '(e, f') := parse (zf_fp z) in
      let at_count c := {| zf_fp := f'; zf_eof := zf_eof z; zf_valid := zf_valid z; zf_domain := zf_domain z; zf_soa := zf_soa z; zf_count := c |} in
      match e with
      | Rec r => if z_type r =? LDNS_RR_TYPE_SOA then Ok (LDNS_STATUS_OK, None, at_count (zf_count z))
                 else Ok (LDNS_STATUS_OK, Some r, at_count (zf_count z + 1))
      | Blank => read_loop fuel (at_count (zf_count z)) out
      | Bad s => Ok (s, out, at_count (zf_count z))
      end
  end.
(** zonefile_read, :139-188: the status, *out and the structure afterwards. *)
Definition zonefile_read (fuel : nat) (z : zonefile) (out : option zrr) : outcome (Z * option zrr * zonefile) :=
  if zf_eof z then Ok (LDNS_STATUS_OK, None, z)
  else if negb (zf_valid z) then Ok (LDNS_STATUS_ERR, out, z)
  else match zf_soa z with
       | Some r => if zf_count z =? 1 then
                     Ok (LDNS_STATUS_OK, Some r, {| zf_fp := zf_fp z; zf_eof := zf_eof z; zf_valid := zf_valid z; zf_domain := zf_domain z; zf_soa := None; zf_count := zf_count z |})
                   else read_loop fuel z out
       | None => read_loop fuel z out
       end.
(** [n] calls of zonefile_read one after another, *out set to NULL before each: the results and the structure afterwards. *)
Fixpoint zonefile_reads (n : nat) (fuel : nat) (z : zonefile) : outcome (list (Z * option zrr) * zonefile) :=
  match n with
  | O => Ok ([], z)
  | S n => '(s, o, z1) <- zonefile_read fuel z None ;; '(l, z2) <- zonefile_reads n fuel z1 ;; Ok ((s, o) :: l, z2)
  end.
