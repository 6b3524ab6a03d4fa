(** ModelName.v: the domain-name functions of /repo/wdns. *)
From Verif Require Import Base.

(** WDNS_MAXLEN_NAME, wdns.h.in:31; WDNS_PRESLEN_NAME, wdns.h.in:39. *)
Definition MAXLEN_NAME : Z := 255.
Definition PRESLEN_NAME : Z := 1025.

(** ** wdns_copy_uname *)

(** wdns/copy_uname.c:43-68, the loop. [m] is the accessible memory starting at [p] (offset 0), [eop] and [src] are
    offsets, [total] is total_len, [out] is what has been stored through dst (capacity 255, as the contract in
    copy_uname.c:20-21 demands). Fuel bounds the number of iterations. *)
Fixpoint copy_loop (fuel : nat) (m : bytes) (eop src total : Z) (out : bytes) : outcome (bytes * Z) :=
  match fuel with
  | O => NoFuel
  | S k =>
    c <- rd m src ;;
    let src := src + 1 in
    if c =? 0 then
      out <- push MAXLEN_NAME out [0] ;;
      Ok (out, total + 1)
    else if c <=? 63 then
      let total := total + 1 in
      if total >=? MAXLEN_NAME then Err res_name_overflow
      else
      out <- push MAXLEN_NAME out [c] ;;
      let total := total + c in
      if total >=? MAXLEN_NAME then Err res_name_overflow
      else if src + c >? eop then Err res_out_of_bounds
      else
      l <- rds m src c ;;
      out <- push MAXLEN_NAME out l ;;
      copy_loop k m eop (src + c) total out
    else Err res_invalid_length_octet
  end.

(** wdns/copy_uname.c:32-69. Result: octets stored at dst and *sz. Every iteration advances src by at least 1, so
    [S (length m)] iterations always suffice (proved: [copy_uname_fuel]). *)
Definition copy_uname (m : bytes) (eop src : Z) : outcome (bytes * Z) :=
  if (0 >=? eop) || (src >=? eop) || (src <? 0) then Err res_out_of_bounds
  else copy_loop (S (length m)) m eop src 0 [].

(** ** wdns_len_uname *)

(** wdns/len_uname.c:39-49: [p] is the memory from the current pointer on, [len] the uint32_t counter. The value
    returned is the counter after the loop: [while (len-- != 0)] leaves it wrapped to 2^32-1 when the loop ends because
    the counter was 0; the [break] leaves it as it is. *)
Fixpoint len_loop (fuel : nat) (p : bytes) (len : Z) : outcome Z :=
  match fuel with
  | O => NoFuel
  | S k =>
    if len =? 0 then Ok ((len - 1) mod 2^32)
    else
    let len := len - 1 in
    oclen <- hd_rd p ;;
    let p := tl p in
    if (oclen >? 63) || (oclen >? len) then Err res_invalid_length_octet
    else if oclen =? 0 then Ok len
    else len_loop k (adv p oclen) (len - oclen)
  end.

(** wdns/len_uname.c:30-55. [p] is the memory starting at p, [n] = eop - p. Result: *sz. *)
Definition len_uname (p : bytes) (n : Z) : outcome Z :=
  let olen := n mod 2^32 in
  if n <=? 0 then Err res_overflow
  else
  len <- len_loop (S (length p)) p olen ;;
  let sz := (olen - len) mod 2^32 in
  if sz >? MAXLEN_NAME then Err res_name_len else Ok sz.

(** ** wdns_skip_name *)

(** wdns/skip_name.c:36-46, the loop; the result is src after the loop. *)
Fixpoint skip_loop (fuel : nat) (m : bytes) (eod src : Z) : outcome Z :=
  match fuel with
  | O => NoFuel
  | S k =>
    if src <=? eod then
      c <- rd m src ;;
      if c =? 0 then Ok src
      else if c >=? 192 then Ok (src + 1)
      else skip_loop k m eod (src + c + 1)
    else Ok src
  end.

(** wdns/skip_name.c:29-58. [m]: memory from offset 0; [src], [eod]: offsets. Result: the new *data
    (the returned count is new - old). *)
Definition skip_name (m : bytes) (eod src : Z) : outcome Z :=
  s <- skip_loop (S (S (length m))) m eod src ;;
  let s := s + 1 in
  Ok (if s >? eod then eod else s).

(** ** wdns_unpack_name *)

(** wdns/unpack_name.c:44-93, the loop; p is offset 0. The compression pointer offset is
    ((c & 63) << 8) + next octet; cptr is the same number as offset because p is 0. *)
Fixpoint unpack_loop (fuel : nat) (m : bytes) (eop src total : Z) (out : bytes) : outcome (bytes * Z) :=
  match fuel with
  | O => NoFuel
  | S k =>
    c <- rd m src ;;
    let src := src + 1 in
    if c =? 0 then
      out <- push MAXLEN_NAME out [0] ;;
      Ok (out, total + 1)
    else if c >=? 192 then
      if src >? eop then Err res_out_of_bounds
      else
      d <- rd m src ;;
      let cptr := Z.shiftl (Z.land c 63) 8 + d in
      if cptr >? eop then Err res_invalid_compression_pointer
      else
      self <- (if cptr =? src - 1 then (b <- rd m (src - 1) ;; Ok (b =? 0)) else Ok false) ;;
      if (self : bool) then unpack_loop k m eop cptr total out
      else if cptr >? src - 2 then Err res_invalid_compression_pointer
      else unpack_loop k m eop cptr total out
    else if c <=? 63 then
      let total := total + 1 in
      if total >=? MAXLEN_NAME then Err res_name_overflow
      else
      out <- push MAXLEN_NAME out [c] ;;
      let total := total + c in
      if total >=? MAXLEN_NAME then Err res_name_overflow
      else if src + c >? eop then Err res_out_of_bounds
      else
      l <- rds m src c ;;
      out <- push MAXLEN_NAME out l ;;
      unpack_loop k m eop (src + c) total out
    else Err res_invalid_length_octet
  end.

(** Fuel that always suffices for a memory of this length (proved: [unpack_fuel_enough]): at most 127 labels, each
    preceded by a strictly descending chain of pointers. *)
Definition unpack_fuel (m : bytes) : nat := (128 * (length m + 2))%nat.

(** wdns/unpack_name.c:32-94. Result: octets stored at dst and *sz. *)
Definition unpack_name (m : bytes) (eop src : Z) : outcome (bytes * Z) :=
  if (0 >=? eop) || (src >=? eop) || (src <? 0) then Err res_out_of_bounds
  else unpack_loop (unpack_fuel m) m eop src 0 [].

(** ** wdns_reverse_name *)

(** wdns/reverse_name.c:27-36: [p] memory from the current pointer, [rev] the output buffer (len_name octets),
    [off] the current value of rev_name as an offset into it. *)
Fixpoint reverse_loop (fuel : nat) (p : bytes) (len_name total off : Z) (rev : bytes) : outcome bytes :=
  match fuel with
  | O => NoFuel
  | S k =>
    len <- hd_rd p ;;
    if len =? 0 then Ok rev
    else
    let len := len + 1 in
    let total := total + len in
    if total >? len_name then Err res_out_of_bounds
    else
    let off := off - len in
    d <- take_rd p len ;;
    rev <- blit rev off d ;;
    reverse_loop k (adv p len) len_name total off rev
  end.

(** wdns/reverse_name.c:17-39. The caller provides an output buffer of len_name octets; result: its contents. *)
Definition reverse_name (name : bytes) (len_name : Z) : outcome bytes :=
  reverse_loop (S (length name)) name len_name 0 (len_name - 1) (repeat 0 (Z.to_nat len_name)).

(** ** wdns_left_chop *)

(** wdns/left_chop.c:17-36. [data] is the memory at name->data, [len] is name->len (uint8_t). Result: chop->data as a
    suffix of memory and chop->len. *)
Definition left_chop (data : bytes) (len : Z) : outcome (bytes * Z) :=
  oclen <- hd_rd data ;;
  if (oclen =? 0) && (len =? 1) then Ok (data, 1)
  else if oclen >? len - 1 then Err res_name_overflow
  else Ok (adv data (oclen + 1), (len - oclen - 1) mod 256).

(** ** wdns_count_labels *)

(** wdns/count_labels.c:36-45: [p] memory from data on, [pos] = data - name->data, [n] = *nlabels. *)
Fixpoint count_loop (fuel : nat) (p : bytes) (pos len n : Z) : outcome Z :=
  match fuel with
  | O => NoFuel
  | S k =>
    c <- hd_rd p ;;
    let p := tl p in
    let pos := pos + 1 in
    if c =? 0 then Ok n
    else if c <=? 63 then
      let n := n + 1 in
      let p := adv p c in
      let pos := pos + c in
      if pos >? len then Err res_name_overflow
      else count_loop k p pos len n
    else Err res_invalid_length_octet
  end.

(** wdns/count_labels.c:28-48. Result: *nlabels. *)
Definition count_labels (data : bytes) (len : Z) : outcome Z :=
  count_loop (S (length data)) data 0 len 0.

(** ** wdns_is_subdomain *)

(** wdns/is_subdomain.c:17-39, gen_label_offsets: [offs] is offsets[0..n). The array has n_labels elements and its
    elements are uint8_t. The elements not reached keep the value 0 of the memset at is_subdomain.c:101-102; that is
    modelled by reading missing elements as 0 in [offset_at]. *)
Fixpoint offsets_loop (fuel : nat) (p : bytes) (pos len n_labels : Z) (offs : list Z) : outcome (list Z) :=
  match fuel with
  | O => NoFuel
  | S k =>
    c <- hd_rd p ;;
    if c =? 0 then Ok offs
    else if c <=? 63 then
      offs <- push n_labels offs [pos mod 256] ;;
      if zlen offs =? n_labels then Ok offs
      else
      let p := adv p c in
      let pos := pos + c in
      if pos >? len then Err res_name_overflow
      else offsets_loop k (tl p) (pos + 1) len n_labels offs
    else Err res_invalid_length_octet
  end.

Definition label_offsets (data : bytes) (len n_labels : Z) : outcome (list Z) :=
  offsets_loop (S (length data)) data 0 len n_labels [].

(** wdns/is_subdomain.c:41-50, compare_label; memcmp's two sources must be readable in full. *)
Definition compare_label (l0 l1 : bytes) : outcome bool :=
  len0 <- hd_rd l0 ;;
  len1 <- hd_rd l1 ;;
  if len0 =? len1 then
    d0 <- take_rd (tl l0) len0 ;;
    d1 <- take_rd (tl l1) len0 ;;
    Ok (if list_eq_dec Z.eq_dec d0 d1 then true else false)
  else Ok false.

(** Array access offsets[i] (missing elements are 0, see [offsets_loop]). *)
Definition offset_at (offs : list Z) (i : Z) : Z := nth (Z.to_nat i) offs 0.

(** wdns/is_subdomain.c:115-128, the do-while loop; [k] is n1_idx + 1. *)
Fixpoint subdomain_loop (k : nat) (d0 d1 : bytes) (o0 o1 : list Z) (i0 : Z) : outcome bool :=
  match k with
  | O => Ok true
  | S k' =>
    eq <- compare_label (adv d0 (offset_at o0 i0)) (adv d1 (offset_at o1 (Z.of_nat k'))) ;;
    if (eq : bool) then subdomain_loop k' d0 d1 o0 o1 (i0 - 1) else Ok false
  end.

(** Error mapping of is_subdomain.c:76-77, 80-81, 105-106, 109-110: any non-success becomes wdns_res_parse_error. *)
Definition as_parse_error {A} (o : outcome A) : outcome A :=
  match o with Err _ => Err res_parse_error | _ => o end.

(** wdns/is_subdomain.c:65-129. Result: *is_subdomain. *)
Definition is_subdomain (d0 : bytes) (len0 : Z) (d1 : bytes) (len1 : Z) : outcome bool :=
  n0 <- as_parse_error (count_labels d0 len0) ;;
  n1 <- as_parse_error (count_labels d1 len1) ;;
  if n0 <=? n1 then Ok false
  else if n0 =? 0 then Ok false
  else if n1 =? 0 then Ok true
  else
  o0 <- as_parse_error (label_offsets d0 len0 n0) ;;
  o1 <- as_parse_error (label_offsets d1 len1 n1) ;;
  subdomain_loop (Z.to_nat n1) d0 d1 o0 o1 (n0 - 1).

(** ** wdns_downcase_name *)

(** wdns/downcase_name.c:23-34: [n] is the remaining count, [p] the memory from p on. Result: that memory afterwards. *)
Fixpoint downcase_loop (n : nat) (p : bytes) : outcome bytes :=
  match n with
  | O => Ok p
  | S k =>
    match p with
    | [] => UB OobRead
    | b :: p' => r <- downcase_loop k p' ;; Ok (dc b :: r)
    end
  end.

Definition downcase_name (data : bytes) (len : Z) : outcome bytes := downcase_loop (Z.to_nat len) data.

(** ** wdns_str_to_name, wdns_str_to_name_case *)

(** wdns/str_to_name.c:18-24. *)
Definition is_digit (c : Z) : bool := (48 <=? c) && (c <=? 57).

(** Overwrite element i of a buffer ( *oclen = v ). *)
Definition set_at (buf : bytes) (i : Z) (v : Z) : outcome bytes := blit buf i [v].

(** wdns/str_to_name.c:48-130, the for(;;) loop.
    [p]: memory of the string (with its NUL) from p on; [slen]: ssize_t counter; [label_len]: size_t;
    [nlen]: name->len (uint8_t); [buf]: what has been stored in name->data (capacity 255; the octet reserved by
    [oclen = data++] holds a placeholder 0 until it is stored); [ocl]: oclen as an offset into buf.
    The data pointer is always at the end of buf. *)
Fixpoint s2n_loop (fuel : nat) (down : bool) (p : bytes) (slen label_len nlen : Z) (buf : bytes) (ocl : Z)
  : outcome (bytes * Z) :=
  match fuel with
  | O => NoFuel
  | S k =>
    c <- hd_rd p ;;
    let p := tl p in
    let label_len := label_len + 1 in
    if slen =? 0 then
      if nlen =? MAXLEN_NAME then Err res_name_overflow
      else
      let label_len := label_len - 1 in
      buf <- set_at buf ocl (label_len mod 256) ;;
      buf <- push MAXLEN_NAME buf [0] ;;
      Ok (buf, (nlen + 1) mod 256)
    else if nlen >=? MAXLEN_NAME then Err res_name_overflow
    else if (65 <=? c) && (c <=? 90) then
      buf <- push MAXLEN_NAME buf [if down then Z.lor c 32 else c] ;;
      s2n_loop k down p (slen - 1) label_len ((nlen + 1) mod 256) buf ocl
    else
      (* the test [c == '\\' && !is_digit( *p)] of line 75 dereferences p only when c is a backslash *)
      nd <- (if c =? 92 then (d <- hd_rd p ;; Ok (negb (is_digit d))) else Ok false) ;;
      if (nd : bool) then
        if slen <=? 0 then Err res_parse_error
        else
        d <- hd_rd p ;;
        buf <- push MAXLEN_NAME buf [d] ;;
        s2n_loop k down (tl p) (slen - 1 - 1) label_len ((nlen + 1) mod 256) buf ocl
      else if (c =? 92) && (slen >=? 3) then
        d0 <- hd_rd p ;;
        d1 <- hd_rd (tl p) ;;
        d2 <- hd_rd (tl (tl p)) ;;
        let p := tl (tl (tl p)) in
        let slen := slen - 3 in
        if negb (is_digit d0) || negb (is_digit d1) || negb (is_digit d2) then Err res_parse_error
        else
        (* strtol of three decimal digits: never negative, endptr at the NUL *)
        let val := (d0 - 48) * 100 + (d1 - 48) * 10 + (d2 - 48) in
        if val <=? 255 then
          buf <- push MAXLEN_NAME buf [val] ;;
          s2n_loop k down p (slen - 1) label_len ((nlen + 1) mod 256) buf ocl
        else Err res_parse_error
      else if c =? 92 then Err res_parse_error
      else if c =? 46 then
        let label_len := label_len - 1 in
        buf <- set_at buf ocl (label_len mod 256) ;;
        if label_len =? 0 then Err res_parse_error
        else
        let ocl := zlen buf in
        buf <- push MAXLEN_NAME buf [0] ;;
        let nlen := (nlen + 1) mod 256 in
        if slen =? 1 then
          buf <- set_at buf ocl 0 ;;
          Ok (buf, nlen)
        else s2n_loop k down p (slen - 1) 0 nlen buf ocl
      else if negb (c =? 0) then
        buf <- push MAXLEN_NAME buf [c] ;;
        s2n_loop k down p (slen - 1) label_len ((nlen + 1) mod 256) buf ocl
      else s2n_loop k down p (slen - 1) label_len nlen buf ocl
  end.

(** wdns/str_to_name.c:26-137. [s] is the string without its NUL; [after] are the octets accessible after the NUL.
    Result: contents of name->data (for the root: a 1-octet block) and name->len. *)
Definition str_to_name_gen (down : bool) (s after : bytes) : outcome (bytes * Z) :=
  let mem := s ++ 0 :: after in
  let slen := zlen s in
  if (slen =? 0) || ((slen =? 1) && (match s with c :: _ => c =? 46 | [] => false end)) then Ok ([0], 1)
  else
  s2n_loop (S (S (length mem))) down mem slen 0 1 [0] 0.

(** wdns/str_to_name.c:139-149. *)
Definition str_to_name (s after : bytes) := str_to_name_gen true s after.
Definition str_to_name_case (s after : bytes) := str_to_name_gen false s after.

(** ** wdns_domain_to_str *)

(** snprintf(dst, 5, "\\%.3d", c) for an octet c, domain_to_str.c:53. *)
Definition esc_ddd (c : Z) : bytes := [92; 48 + c / 100; 48 + (c / 10) mod 10; 48 + c mod 10].

(** wdns/domain_to_str.c:43-56, the inner loop. [oclen] counts down; result: src, bytes_remaining, dst.
    snprintf stores 5 octets (with the NUL), hence the extra capacity check. *)
Fixpoint dts_chars (oclen : nat) (src : bytes) (rem : Z) (dst : bytes) : outcome (bytes * Z * bytes) :=
  match oclen with
  | O => Ok (src, rem, dst)
  | S k =>
    if rem >? 0 then
      c <- hd_rd src ;;
      let src := tl src in
      let rem := rem - 1 in
      if (c =? 46) || (c =? 92) then
        dst <- push PRESLEN_NAME dst [92; c] ;;
        dts_chars k src rem dst
      else if (33 <=? c) && (c <=? 126) then
        dst <- push PRESLEN_NAME dst [c] ;;
        dts_chars k src rem dst
      else
        _ <- push PRESLEN_NAME dst (esc_ddd c ++ [0]) ;;
        dts_chars k src rem (dst ++ esc_ddd c)
    else Ok (src, rem, dst)
  end.

(** wdns/domain_to_str.c:37-59, the outer loop; [read] is bytes_read. *)
Fixpoint dts_loop (fuel : nat) (src : bytes) (rem : Z) (dst : bytes) (oclen read : Z)
  : outcome (bytes * Z) :=
  match fuel with
  | O => NoFuel
  | S k =>
    if (rem >? 0) && negb (oclen =? 0) then
      let src := tl src in
      let rem := rem - 1 in
      let read := read + oclen + 1 in
      '(src, rem, dst) <- dts_chars (Z.to_nat oclen) src rem dst ;;
      dst <- push PRESLEN_NAME dst [46] ;;
      oclen <- hd_rd src ;;
      dts_loop k src rem dst oclen read
    else
      dst <- (if read =? 0 then push PRESLEN_NAME dst [46] else Ok dst) ;;
      _ <- push PRESLEN_NAME dst [0] ;;
      Ok (dst, read + 1)
  end.

(** wdns/domain_to_str.c:27-66. [src]: memory at src; result: the string (without its NUL) and the return value.
    The destination has the documented capacity WDNS_PRESLEN_NAME (domain_to_str.c:22). *)
Definition domain_to_str (src : bytes) (src_len : Z) : outcome (bytes * Z) :=
  oclen <- hd_rd src ;;
  dts_loop (S (length src)) src src_len [] oclen 0.
