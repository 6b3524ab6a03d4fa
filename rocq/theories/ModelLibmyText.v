(** ModelLibmyText.v: libmy/hex_decode.h, libmy/print_string.h, libmy/string_replace.h. A C string is the list of its characters
    (octets 1..255) without the NUL; memory behind the NUL is not modelled, so reading beyond it is a fault. *)
From Verif Require Import Base Lib Libc.

(** hex_decode.h:27-55, hex_to_int. Characters above 127 are negative; toupper leaves them alone (glibc) and no case matches. *)
Definition hex_to_int (hex : Z) : option Z :=
  let hex := toupper hex in
  if (48 <=? hex) && (hex <=? 57) then Some (hex - 48)
  else if (65 <=? hex) && (hex <=? 70) then Some (hex - 55)
  else None.
(** Reading *hex. *)
Definition char_at (s : bytes) : outcome Z := match s with [] => UB OobRead | c :: _ => Ok c end.
(** hex_decode.h:67-81, the loop; [mem]: the characters from [hex] on with the NUL, [cap]: the octets allocated, [out]: those
    stored. None: goto err. *)
Fixpoint hex_loop (fuel : nat) (mem : bytes) (hexlen cap : Z) (out : bytes) : outcome (option bytes) :=
  match fuel with
  | O => if hexlen =? 0 then Ok (Some out) else NoFuel
  | S fuel =>
      if hexlen =? 0 then Ok (Some out) else
      a <- char_at mem ;;
      match hex_to_int a with
      | None => Ok None
      | Some v0 =>
          let mem := tl mem in
          b <- char_at mem ;;
          match hex_to_int b with
          | None => Ok None
          | Some v1 =>
              let mem := tl mem in
              if zlen out >=? cap then UB OobWrite else
              hex_loop fuel mem ((hexlen - 2) mod 2 ^ 64) cap (out ++ [(Z.lor (Z.shiftl v0 4) v1) mod 256])
          end
      end
  end.
(** hex_decode.h:57-86, hex_decode: the octets, or None for false. *)
Definition hex_decode (hex : bytes) : outcome (option bytes) :=
  let hexlen := zlen hex in
  if (hexlen =? 0) || negb (hexlen mod 2 =? 0) then Ok None else
  hex_loop (length hex) (hex ++ [0]) hexlen (hexlen / 2) [].

(** printf("%02x", c) for c < 256. *)
Definition hex_char (v : Z) : Z := if v <? 10 then 48 + v else 87 + v.
(** print_string.h:30-39, one octet. *)
Definition print_octet (c : Z) : bytes :=
  if isprint c then (if c =? 34 then [92; 34] else [c]) else [92; 120; hex_char (c / 16); hex_char (c mod 16)].
(** print_string.h:24-41, print_string: the characters written; [data]: the memory, [len]: the octets to print. *)
Fixpoint print_loop (len : nat) (data : bytes) : outcome bytes :=
  match len with
  | O => Ok []
  | S len => c <- char_at data ;; r <- print_loop len (tl data) ;; Ok (print_octet c ++ r)
  end.
Definition print_string (data : bytes) (len : Z) : outcome bytes :=
  body <- print_loop (Z.to_nat len) data ;; Ok ([34] ++ body ++ [34]).

(** strstr(s, old): the offset. *)
Fixpoint strstr (s old : bytes) : option nat :=
  if prefix_eq old s then Some 0%nat else match s with [] => None | _ :: s => option_map S (strstr s old) end.
(** string_replace.h:38-48, the loop and the last append; [u]: the buffer. str + strlen(old) >= end compares with the address
    behind the NUL. *)
Fixpoint replace_loop (fuel : nat) (str old new u : bytes) : outcome bytes :=
  match fuel with
  | O => NoFuel
  | S fuel =>
      match strstr str old with
      | None => Ok (u ++ str)
      | Some offset =>
          let u := u ++ firstn offset str ++ new in
          let str := skipn offset str in
          if zlen old >=? zlen str + 1 then Ok (u ++ str)
          else replace_loop fuel (skipn (length old) str) old new u
      end
  end.
(** string_replace.h:24-54, string_replace; [fuel]: an upper bound on the iterations. *)
Definition string_replace (fuel : nat) (str old new : bytes) : outcome bytes :=
  match strstr str old with None => Ok str | Some _ => replace_loop fuel str old new [] end.
