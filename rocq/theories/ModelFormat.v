(** ModelFormat.v: number, address, base64 and base32hex text codecs of /repo/libmy used by wdns. *)
From Verif Require Import Base ModelName Libc.

(** ** my_format.c *)

(** my_format.c:22-33, _my_byte_to_hex_str (the tables are "0123456789abcdef" / "0123456789ABCDEF"). *)
Definition hex_lower : bytes := lit "0123456789abcdef".
Definition hex_upper : bytes := lit "0123456789ABCDEF".
Definition byte_to_hex (upper : bool) (b : Z) : outcome bytes :=
  let table := if upper then hex_upper else hex_lower in
  h <- rd table (Z.land (Z.shiftr b 4) 15) ;;
  l <- rd table (Z.land b 15) ;;
  Ok [h; l].

(** my_format.c:43-44: the loop; [n] octets left. *)
Fixpoint hex_loop (n : nat) (upper : bool) (cap : Z) (src dst : bytes) : outcome bytes :=
  match n with
  | O => Ok dst
  | S k =>
    b <- hd_rd src ;;
    h <- byte_to_hex upper b ;;
    dst <- push cap dst h ;;
    hex_loop k upper cap (tl src) dst
  end.

(** my_format.c:35-49, my_bytes_to_hex_str; [src]: memory at src; result: the string in dst (without NUL) and the
    return value. *)
Definition bytes_to_hex_str (src : bytes) (len : Z) (upper : bool) (dst_size : Z) : outcome (bytes * Z) :=
  let len := if len * 2 >? dst_size - 1 then (dst_size - 1) / 2 else len in
  dst <- hex_loop (Z.to_nat len) upper dst_size src [] ;;
  _ <- push dst_size dst [0] ;;
  Ok (dst, len * 2).

(** my_format.c:67-77, the loop: [dst] is the buffer, [ptr] an offset into it. Result: dst, ptr, ndigits. *)
Fixpoint u64_loop (fuel : nat) (num : Z) (dst : bytes) (ptr ndigits : Z) : outcome (bytes * Z * Z) :=
  match fuel with
  | O => NoFuel
  | S k =>
    if ptr >=? 0 then
      dst <- set_at dst ptr (48 + num mod 10) ;;
      let ndigits := ndigits + 1 in
      let num := num / 10 in
      if (num =? 0) || (ptr =? 0) then Ok (dst, ptr, ndigits) else u64_loop k num dst (ptr - 1) ndigits
    else Ok (dst, ptr, ndigits)
  end.

(** my_format.c:59-82, my_uint64_to_str with the buffer dst (its size is dst_size). Result: the buffer, *start as an
    offset into it, and the return value. *)
Definition uint64_to_str (num : Z) (dst : bytes) : outcome (bytes * Z * Z) :=
  let size := zlen dst in
  dst <- set_at dst (size - 1) 0 ;;
  u64_loop (S (length dst)) num dst (size - 2) 0.

(** The use made of it everywhere: a buffer of [size] characters (contents irrelevant: all octets read back were just
    written, see rdata_to_ubuf.c:323-329), then the [len] octets at *start. *)
Definition u64_text (size num : Z) : outcome bytes :=
  '(buf, start, len) <- uint64_to_str num (repeat 0 (Z.to_nat size)) ;;
  rds buf start len.

(** rdata_to_ubuf.c:36-39: char tmp[] = "\\000"; my_uint64_to_str(c, tmp, sizeof(tmp), NULL); append 4 octets of tmp. *)
Definition octal_like (c : Z) : outcome bytes :=
  '(buf, _, _) <- uint64_to_str c (lit "\000" ++ [0]) ;;
  rds buf 0 4.

(** ** fast_inet_ntop.c *)

(** fast_inet_ntop.c:41-47, the do/while loop: [cells] are the four characters at dst, [n] = ptr - dst. *)
Fixpoint hex16_loop (fuel : nat) (num ndx n : Z) (cells : bytes) : outcome (bytes * Z) :=
  match fuel with
  | O => NoFuel
  | S k =>
    h <- rd hex_lower (Z.land num 15) ;;
    cells <- set_at cells ndx h ;;
    let num := Z.shiftr num 4 in
    if num =? 0 then Ok (cells, n + 1) else hex16_loop k num (ndx - 1) (n + 1) cells
  end.

(** fast_inet_ntop.c:26-49, print_hex_uint16_t: the characters between dst and the returned pointer. *)
Definition print_hex_uint16 (num : Z) : outcome bytes :=
  let ndx := if num >=? 4096 then 3 else if num >=? 256 then 2 else if num >=? 16 then 1 else 0 in
  '(cells, n) <- hex16_loop 5 num ndx 0 [0; 0; 0; 0] ;;
  rds cells 0 n.

(** fast_inet_ntop.c:72-94: [ipp]: the octets left, [i]: loop counter. numstr[v] is written as the two decimal digits
    of v (the table of lines 51-62). *)
Fixpoint inet4_loop (ipp : bytes) (i : Z) (cap : Z) (dst : bytes) : outcome bytes :=
  match ipp with
  | [] => Ok dst
  | b :: r =>
    dst <- (if b >=? 200 then push cap dst [50] else if b >=? 100 then push cap dst [49] else Ok dst) ;;
    let ipb := if b >=? 200 then b - 200 else if b >=? 100 then b - 100 else b in
    dst <- (if b >=? 10 then push cap dst [48 + ipb / 10] else Ok dst) ;;
    dst <- push cap dst [48 + ipb mod 10] ;;
    dst <- (if i <? 3 then push cap dst [46] else Ok dst) ;;
    inet4_loop r (i + 1) cap dst
  end.

(** fast_inet_ntop.c:64-98, fast_inet4_ntop; [size] is also the real capacity of dst. None: NULL is returned. *)
Definition inet4_ntop (src : bytes) (size : Z) : outcome (option bytes) :=
  if size <? 16 then Ok None
  else
  ipp <- take_rd src 4 ;;
  dst <- inet4_loop ipp 0 size [] ;;
  _ <- push size dst [0] ;;
  Ok (Some dst).

(** fast_inet_ntop.c:128-129: the eight words. *)
Fixpoint words_of (l : bytes) : list Z :=
  match l with a :: b :: r => Z.lor (Z.shiftl a 8) b :: words_of r | _ => [] end.

(** fast_inet_ntop.c:134-147: best and cur are (base, len). *)
Fixpoint runs_loop (ws : list Z) (i : Z) (best cur : Z * Z) : (Z * Z) * (Z * Z) :=
  match ws with
  | [] => (best, cur)
  | w :: r =>
    if w =? 0 then
      runs_loop r (i + 1) best (if fst cur =? -1 then (i, 1) else (fst cur, snd cur + 1))
    else if negb (fst cur =? -1) then
      runs_loop r (i + 1) (if (fst best =? -1) || (snd cur >? snd best) then cur else best) (-1, snd cur)
    else runs_loop r (i + 1) best cur
  end.

(** fast_inet_ntop.c:130-153. *)
Definition best_run (ws : list Z) : Z * Z :=
  let '(best, cur) := runs_loop ws 0 (-1, 0) (-1, 0) in
  let best := if negb (fst cur =? -1) then if (fst best =? -1) || (snd cur >? snd best) then cur else best else best in
  if negb (fst best =? -1) && (snd best <? 2) then (-1, snd best) else best.

(** fast_inet_ntop.c:158-178, the formatting loop: [ws] the words left, [i] the index, [w5] = words[5], [last4] the
    memory at psrc + 12. None: NULL is returned. *)
Fixpoint inet6_loop (ws : list Z) (i : Z) (best : Z * Z) (w5 : Z) (last4 : bytes) (size : Z) (dst : bytes)
  : outcome (option bytes) :=
  match ws with
  | [] => Ok (Some dst)
  | w :: r =>
    if negb (fst best =? -1) && (i >=? fst best) && (i <? fst best + snd best) then
      dst <- (if i =? fst best then push size dst [58] else Ok dst) ;;
      inet6_loop r (i + 1) best w5 last4 size dst
    else
      dst <- (if negb (i =? 0) then push size dst [58] else Ok dst) ;;
      if (i =? 6) && (fst best =? 0) && ((snd best =? 6) || ((snd best =? 5) && (w5 =? 65535))) then
        o <- inet4_ntop last4 (size - zlen dst) ;;
        match o with None => Ok None | Some t => Ok (Some (dst ++ t)) end
      else
        h <- print_hex_uint16 w ;;
        dst <- push size dst h ;;
        inet6_loop r (i + 1) best w5 last4 size dst
  end.

(** fast_inet_ntop.c:101-193, fast_inet6_ntop. *)
Definition inet6_ntop (src : bytes) (size : Z) : outcome (option bytes) :=
  if size <? 46 then Ok None
  else
  a <- take_rd src 16 ;;
  let ws := words_of a in
  let best := best_run ws in
  o <- inet6_loop ws 0 best (nth 5 ws 0) (adv src 12) size [] ;;
  match o with
  | None => Ok None
  | Some dst =>
    dst <- (if negb (fst best =? -1) && (fst best + snd best =? 8) then push size dst [58] else Ok dst) ;;
    _ <- push size dst [0] ;;
    if zlen dst + 1 >? size then Ok None else Ok (Some dst)
  end.

(** ** b64_encode.c *)
Inductive b64step := StepA | StepB | StepC.

(** b64_encode.c:16-21, base64_encode_value. *)
Definition b64_alphabet : bytes := lit "ABCDEFGHIJKLMNOPQRSTUVWXYZabcdefghijklmnopqrstuvwxyz0123456789+/".
Definition base64_encode_value (v : Z) : outcome Z := if v >? 63 then Ok 61 else rd b64_alphabet v.

(** b64_encode.c:23-75, base64_encode_block: one iteration per input octet; [out]: what was stored at code_out
    (capacity cap). Result: out and the state (step, result). *)
Fixpoint b64_encode_block (l : bytes) (step : b64step) (result : Z) (cap : Z) (out : bytes)
  : outcome (bytes * b64step * Z) :=
  match l with
  | [] => Ok (out, step, result)
  | f :: r =>
    match step with
    | StepA =>
      c <- base64_encode_value (Z.shiftr (Z.land f 252) 2) ;;
      out <- push cap out [c] ;;
      b64_encode_block r StepB (Z.shiftl (Z.land f 3) 4) cap out
    | StepB =>
      c <- base64_encode_value (Z.lor result (Z.shiftr (Z.land f 240) 4)) ;;
      out <- push cap out [c] ;;
      b64_encode_block r StepC (Z.shiftl (Z.land f 15) 2) cap out
    | StepC =>
      c <- base64_encode_value (Z.lor result (Z.shiftr (Z.land f 192) 6)) ;;
      out <- push cap out [c] ;;
      d <- base64_encode_value (Z.land f 63) ;;
      out <- push cap out [d] ;;
      b64_encode_block r StepA (Z.land f 63) cap out
    end
  end.

(** b64_encode.c:77-97, base64_encode_blockend. *)
Definition b64_encode_blockend (step : b64step) (result : Z) (cap : Z) : outcome bytes :=
  match step with
  | StepA => Ok []
  | StepB => c <- base64_encode_value result ;; push cap [] [c; 61; 61]
  | StepC => c <- base64_encode_value result ;; push cap [] [c; 61]
  end.

(** rdata_to_ubuf.c:64-81, bytes_to_ubuf_base64: the text appended; [src]: memory at src; src_len is a uint16_t. *)
Definition bytes_to_base64 (src : bytes) (src_len : Z) : outcome bytes :=
  let n := src_len mod 65536 in
  l <- take_rd src n ;;
  '(out, step, result) <- b64_encode_block l StepA 0 (2 * n + 1) [] ;;
  e <- b64_encode_blockend step result (2 * n + 1) ;;
  Ok (out ++ e).

(** ** b64_decode.c *)

(** b64_decode.c:12: the table, and :13 its size as a char. *)
Definition b64_decoding : list Z :=
  [62;-1;-1;-1;63;52;53;54;55;56;57;58;59;60;61;-1;-1;-1;-2;-1;-1;-1;0;1;2;3;4;5;6;7;8;9;10;11;12;13;14;15;16;17;18;19;
   20;21;22;23;24;25;-1;-1;-1;-1;-1;-1;26;27;28;29;30;31;32;33;34;35;36;37;38;39;40;41;42;43;44;45;46;47;48;49;50;51].

(** Conversion to signed char. *)
Definition schar (v : Z) : Z := (v + 128) mod 256 - 128.

(** b64_decode.c:10-17, base64_decode_value; [c] is the octet 0..255 of the (signed) char argument. *)
Definition base64_decode_value (c : Z) : outcome Z :=
  let v := schar (schar c - 43) in
  if (v <? 0) || (v >? zlen b64_decoding) then Ok (-1) else rd b64_decoding v.

Inductive b64dstep := Da | Db | Dc | Dd.

(** b64_decode.c:25-87, base64_decode_block. [out]: complete octets at plaintext_out (capacity cap), [cur]: the
    partially assembled octet *plainchar behind them. The read of *plainchar into the state at the end is not
    modelled (the state is discarded by the caller, str_to_rdata_ubuf.c:87-97); its bounds are those of the store. *)
Fixpoint b64_decode_block (code : bytes) (step : b64dstep) (cap : Z) (out : bytes) (cur : Z) : outcome bytes :=
  match code with
  | [] => if zlen out <? cap then Ok out else UB OobRead
  | c :: r =>
    f <- base64_decode_value c ;;
    if f <? 0 then b64_decode_block r step cap out cur
    else match step with
    | Da => _ <- push cap out [0] ;; b64_decode_block r Db cap out (Z.shiftl (Z.land f 63) 2)
    | Db => _ <- push cap out [0; 0] ;;
        b64_decode_block r Dc cap (out ++ [Z.lor cur (Z.shiftr (Z.land f 48) 4)]) (Z.shiftl (Z.land f 15) 4)
    | Dc => _ <- push cap out [0; 0] ;;
        b64_decode_block r Dd cap (out ++ [Z.lor cur (Z.shiftr (Z.land f 60) 2)]) (Z.shiftl (Z.land f 3) 6)
    | Dd => _ <- push cap out [0] ;;
        b64_decode_block r Da cap (out ++ [Z.lor cur (Z.land f 63)]) cur
    end
  end.

(** str_to_rdata_ubuf.c:84-98, base64_str_to_ubuf: the octets appended (its return value is their number). *)
Definition base64_str_to_bytes (str : bytes) : outcome bytes :=
  b64_decode_block str Da (zlen str + 1) [] 0.

(** ** b32_encode.c *)
Definition b32_alphabet : bytes := lit "0123456789ABCDEFGHIJKLMNOPQRSTUV".

(** b32_encode.c:104-114: the eight 5-bit values of up to five octets. *)
Definition b32_values (x0 x1 x2 x3 x4 : Z) : list Z :=
  [ Z.shiftr x0 3; Z.lor (Z.shiftl (Z.land x0 7) 2) (Z.shiftr x1 6); Z.land (Z.shiftr x1 1) 31;
    Z.lor (Z.shiftl (Z.land x1 1) 4) (Z.shiftr x2 4); Z.lor (Z.shiftl (Z.land x2 15) 1) (Z.shiftr x3 7);
    Z.land (Z.shiftr x3 2) 31; Z.lor (Z.shiftl (Z.land x3 3) 3) (Z.shiftr x4 5); Z.land x4 31 ].

(** b32_encode.c:116-118: output of the first k values while the destination (size octets) has room. *)
Fixpoint b32_emit (vs : list Z) (size : Z) (dst : bytes) : outcome bytes :=
  match vs with
  | [] => Ok dst
  | v :: r => if zlen dst =? size then Ok dst else c <- rd b32_alphabet v ;; dst <- push size dst [c] ;; b32_emit r size dst
  end.

(** b32_encode.c:82-124, the do/while loop; [data] is p + i with len - i octets left. *)
Fixpoint b32_loop (fuel : nat) (data : bytes) (size : Z) (dst : bytes) : outcome bytes :=
  match fuel with
  | O => NoFuel
  | S n =>
    let k := match zlen data with 4 => 7 | 3 => 5 | 2 => 4 | 1 => 2 | _ => 8 end in
    let x j := nth j data 0 in
    dst <- b32_emit (firstn (Z.to_nat k) (b32_values (x 0%nat) (x 1%nat) (x 2%nat) (x 3%nat) (x 4%nat))) size dst ;;
    if zlen dst =? size then Ok dst
    else let data := skipn 5 data in
      match data with [] => Ok dst | _ => b32_loop n data size dst end
  end.

(** b32_encode.c:74-127, base32_encode; [data]: the len octets of data. *)
Definition base32_encode (size : Z) (data : bytes) : outcome bytes := b32_loop (S (length data)) data size [].

(** ** b32_decode.c *)

(** b32_decode.c:124-132: base32_map[c]; 255 for characters outside the alphabet. *)
Fixpoint memchr_pos (l : bytes) (c i : Z) : Z :=
  match l with [] => 255 | x :: r => if x =? c then i else memchr_pos r c (i + 1) end.
Definition base32_map (c : Z) : Z := memchr_pos b32_alphabet (toupper c) 0.

(** b32_decode.c:155-193: the octets completely covered by the si values in s (the rest of s is zero). *)
Definition b32_octets (s : list Z) : bytes :=
  let si := zlen s in
  let v j := nth j s 0 in
  (if si <? 2 then [] else
    Z.lor (Z.land (Z.shiftl (v 0%nat) 3) 248) (Z.land (Z.shiftr (v 1%nat) 2) 7) ::
  (if si <? 4 then [] else
    Z.lor (Z.lor (Z.shiftl (Z.land (v 1%nat) 3) 6) (Z.shiftl (Z.land (v 2%nat) 31) 1)) (Z.land (Z.shiftr (v 3%nat) 4) 1) ::
  (if si <? 5 then [] else
    Z.lor (Z.shiftl (Z.land (v 3%nat) 15) 4) (Z.land (Z.shiftr (v 4%nat) 1) 15) ::
  (if si <? 7 then [] else
    Z.lor (Z.lor (Z.shiftl (Z.land (v 4%nat) 1) 7) (Z.shiftl (Z.land (v 5%nat) 31) 2)) (Z.land (Z.shiftr (v 6%nat) 3) 3) ::
  (if si <? 8 then [] else
    [Z.lor (Z.shiftl (Z.land (v 6%nat) 7) 5) (Z.land (v 7%nat) 31)]))))).

(** b32_decode.c:138-204: [s] holds the si values read since the last flush. [None]: (size_t) -1 is returned.
    Lines 195-197 store while the destination has room. *)
Fixpoint b32_dloop (data : bytes) (size : Z) (s : list Z) (pad : bool) (dst : bytes) : outcome (option bytes) :=
  match data with
  | [] => Ok (Some dst)
  | c :: r =>
    let pad' := pad || (c =? 61) in
    if negb (c =? 61) && (base32_map c =? 255) then Ok None
    else
    let s := if c =? 61 then s else s ++ [base32_map c] in
    if zlen s >? 8 then UB OobWrite else
    let flush := (zlen s =? 8) || pad' || (match r with [] => true | _ => false end) in
    let dst := if flush then dst ++ firstn (Z.to_nat (size - zlen dst)) (b32_octets s) else dst in
    let s := if flush then [] else s in
    if zlen dst =? size then Ok (Some dst) else b32_dloop r size s pad' dst
  end.

(** b32_decode.c:114-207, base32_decode. *)
Definition base32_decode (size : Z) (data : bytes) : outcome (option bytes) := b32_dloop data size [] false [].
