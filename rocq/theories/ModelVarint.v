(** ModelVarint.v: libmy/varint.c. uint8_t, uint32_t and uint64_t values are integers with explicit truncation; the encoder's
    destination is the list of octets stored; the decoder's source is the memory from [data] on.

    [strict]: whether a left shift of an int whose result is not representable is undefined (C11 6.5.7) or wraps as GCC
    documents it. It only matters in varint_decode32. *)
From Verif Require Import Base Lib.

Definition u8 (v : Z) : Z := v mod 256.
Definition u32 (v : Z) : Z := v mod 4294967296.
Definition u64 (v : Z) : Z := v mod 18446744073709551616.

(** varint.c:79-88, varint_length. *)
Fixpoint varint_length_loop (fuel : nat) (v len : Z) : outcome Z :=
  match fuel with
  | O => if v >=? 128 then NoFuel else Ok len
  | S fuel => if v >=? 128 then varint_length_loop fuel (Z.shiftr v 7) (u32 (len + 1)) else Ok len
  end.
Definition varint_length (v : Z) : outcome Z := varint_length_loop 10 v 1.

(** varint.c:90-103, varint_length_packed. *)
Fixpoint packed_loop (len : nat) (data : bytes) (i : Z) : outcome Z :=
  match len with
  | O => Ok i
  | S len => b <- rd data i ;; if Z.land b 128 =? 0 then Ok i else packed_loop len data (u32 (i + 1))
  end.
Definition varint_length_packed (data : bytes) (len_data : Z) : outcome Z :=
  i <- packed_loop (Z.to_nat len_data) data 0 ;;
  if i =? len_data then Ok 0 else Ok (u32 (i + 1)).

(** varint.c:105-133, varint_encode32: the octets stored. *)
Definition varint_encode32 (v : Z) : bytes :=
  let B := 128 in
  if v <? 2 ^ 7 then [u8 v]
  else if v <? 2 ^ 14 then [u8 (Z.lor v B); u8 (Z.shiftr v 7)]
  else if v <? 2 ^ 21 then [u8 (Z.lor v B); u8 (Z.lor (Z.shiftr v 7) B); u8 (Z.shiftr v 14)]
  else if v <? 2 ^ 28 then [u8 (Z.lor v B); u8 (Z.lor (Z.shiftr v 7) B); u8 (Z.lor (Z.shiftr v 14) B); u8 (Z.shiftr v 21)]
  else [u8 (Z.lor v B); u8 (Z.lor (Z.shiftr v 7) B); u8 (Z.lor (Z.shiftr v 14) B); u8 (Z.lor (Z.shiftr v 21) B); u8 (Z.shiftr v 28)].

(** varint.c:135-146, varint_encode64. *)
Fixpoint varint_encode64_loop (fuel : nat) (v : Z) : outcome bytes :=
  match fuel with
  | O => if v >=? 128 then NoFuel else Ok [u8 v]
  | S fuel => if v >=? 128 then l <- varint_encode64_loop fuel (Z.shiftr v 7) ;; Ok (u8 (Z.lor (Z.land v 127) 128) :: l) else Ok [u8 v]
  end.
Definition varint_encode64 (v : Z) : outcome bytes := varint_encode64_loop 10 v.

(** x << n for an int x >= 0, then converted to uint32_t. *)
Definition shl_int (strict : bool) (x n : Z) : outcome Z :=
  let r := Z.shiftl x n in if r <=? 2147483647 then Ok r else if strict then UB BadShift else Ok (u32 r).

(** varint.c:148-166, varint_decode32: the length and the value. *)
Definition varint_decode32 (strict : bool) (data : bytes) : outcome (Z * Z) :=
  len <- varint_length_packed data 5 ;;
  d0 <- rd data 0 ;;
  let val := Z.land d0 127 in
  val <- (if len >? 1 then
    d1 <- rd data 1 ;; s1 <- shl_int strict (Z.land d1 127) 7 ;; let val := Z.lor val s1 in
    if len >? 2 then
      d2 <- rd data 2 ;; s2 <- shl_int strict (Z.land d2 127) 14 ;; let val := Z.lor val s2 in
      if len >? 3 then
        d3 <- rd data 3 ;; s3 <- shl_int strict (Z.land d3 127) 21 ;; let val := Z.lor val s3 in
        if len >? 4 then d4 <- rd data 4 ;; s4 <- shl_int strict d4 28 ;; Ok (Z.lor val s4) else Ok val
      else Ok val
    else Ok val
  else Ok val) ;;
  Ok (len, val).

(** varint.c:184-187, the loop of varint_decode64; [n] = len - i. *)
Fixpoint decode64_loop (n : nat) (data : bytes) (i shift val : Z) : outcome Z :=
  match n with
  | O => Ok val
  | S n => d <- rd data i ;; decode64_loop n data (i + 1) (shift + 7) (Z.lor val (u64 (Z.shiftl (Z.land d 127) shift)))
  end.
(** varint.c:168-190, varint_decode64. *)
Definition varint_decode64 (strict : bool) (data : bytes) : outcome (Z * Z) :=
  len <- varint_length_packed data 10 ;;
  if len <? 5 then varint_decode32 strict data else
  d0 <- rd data 0 ;; d1 <- rd data 1 ;; d2 <- rd data 2 ;; d3 <- rd data 3 ;;
  s1 <- shl_int strict (Z.land d1 127) 7 ;; s2 <- shl_int strict (Z.land d2 127) 14 ;; s3 <- shl_int strict (Z.land d3 127) 21 ;;
  val <- decode64_loop (Z.to_nat (len - 4)) data 4 28 (Z.lor (Z.lor (Z.lor (Z.land d0 127) s1) s2) s3) ;;
  Ok (len, val).
