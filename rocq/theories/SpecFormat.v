(** SpecFormat.v: text forms of numbers, addresses and octet strings, independently of the C code. *)
From Verif Require Import Base SpecName.

(** ** Decimal: the digits denote n and there is no superfluous leading zero. *)
Definition dec_value (s : bytes) : Z := fold_left (fun a c => a * 10 + (c - 48)) s 0.
Definition decimal (n : Z) (s : bytes) : Prop :=
  Forall digit s /\ dec_value s = n /\ (s = [48] \/ exists c r, s = c :: r /\ c <> 48).

(** ** Hexadecimal digits, either case. *)
Inductive hex_digit : Z -> Z -> Prop :=
| hd_dec : forall c, 48 <= c <= 57 -> hex_digit c (c - 48)
| hd_low : forall c, 97 <= c <= 102 -> hex_digit c (c - 87)
| hd_upp : forall c, 65 <= c <= 70 -> hex_digit c (c - 55).

(** One octet as two hexadecimal digits; [upper]: digits above 9 in upper case, else lower case. *)
Definition hex_case (upper : bool) (c : Z) : Prop :=
  48 <= c <= 57 \/ (if upper then 65 <= c <= 70 else 97 <= c <= 102).
Definition hex_octet (upper : bool) (b : Z) (s : bytes) : Prop :=
  exists h l x y, s = [h; l] /\ hex_digit h x /\ hex_digit l y /\ b = 16 * x + y /\ hex_case upper h /\ hex_case upper l.

(** ** IPv4: four decimal octets separated by dots. *)
Definition ipv4_text (a : bytes) (s : bytes) : Prop :=
  exists a0 a1 a2 a3 s0 s1 s2 s3, a = [a0; a1; a2; a3] /\
    decimal a0 s0 /\ decimal a1 s1 /\ decimal a2 s2 /\ decimal a3 s3 /\
    s = s0 ++ 46 :: s1 ++ 46 :: s2 ++ 46 :: s3.

(** ** IPv6 (RFC 4291 section 2.2, RFC 5952): a 16-bit group is 1..4 lower case hexadecimal digits without leading zero. *)
Definition hex_value (s : bytes) : Z :=
  fold_left (fun a c => a * 16 + (if c <=? 57 then c - 48 else c - 87)) s 0.
Definition group_text (w : Z) (s : bytes) : Prop :=
  Forall (hex_case false) s /\ hex_value s = w /\ zlen s <= 4 /\ (s = [48] \/ exists c r, s = c :: r /\ c <> 48).

(** Groups separated by colons. *)
Inductive groups_text : list Z -> bytes -> Prop :=
| gt_one : forall w s, group_text w s -> groups_text [w] s
| gt_more : forall w s ws t, group_text w s -> groups_text ws t -> groups_text (w :: ws) (s ++ 58 :: t).
Definition groups_opt (ws : list Z) (s : bytes) : Prop := (ws = [] /\ s = []) \/ groups_text ws s.

(** The address as eight 16-bit words. *)
Definition word_octets (ws : list Z) : bytes := concat (map (fun w => [w / 256; w mod 256]) ws).

(** Every run of zero words is shorter than the n words behind the first k, or equally long and not before them. *)
Definition first_longest (ws : list Z) (k n : nat) : Prop :=
  forall pre m post, ws = pre ++ repeat 0 m ++ post -> (m < n)%nat \/ (m = n /\ (k <= length pre)%nat).

(** Full form if no two adjacent words are zero; the embedded IPv4 forms if the first longest run of zero words is the
    first six words, or the first five and the sixth is ffff; else the form with "::" for the first longest run. *)
Inductive ipv6_text (a : bytes) : bytes -> Prop :=
| v6_full : forall ws s, length ws = 8%nat -> a = word_octets ws ->
    (forall pre post, ws <> pre ++ [0; 0] ++ post) -> groups_text ws s -> ipv6_text a s
| v6_run : forall pre post n s t, (2 <= n)%nat -> (length pre + n + length post = 8)%nat ->
    first_longest (pre ++ repeat 0 n ++ post) (length pre) n ->
    ~ (pre = [] /\ (n = 6%nat \/ (n = 5%nat /\ hd 0 post = 65535))) ->
    a = word_octets (pre ++ repeat 0 n ++ post) -> groups_opt pre s -> groups_opt post t ->
    ipv6_text a (s ++ [58; 58] ++ t)
| v6_compat : forall x y v4 s, (x, y) <> (0, 0) -> a = repeat 0 12 ++ x :: y :: v4 -> ipv4_text (x :: y :: v4) s -> ipv6_text a ([58; 58] ++ s)
| v6_mapped : forall v4 s, a = repeat 0 10 ++ [255; 255] ++ v4 -> ipv4_text v4 s ->
    ipv6_text a ([58; 58; 102; 102; 102; 102; 58] ++ s).

(** ** Base 64 (RFC 4648 section 4). *)
Definition b64_char (v : Z) : Z :=
  if v <=? 25 then 65 + v else if v <=? 51 then 97 + (v - 26) else if v <=? 61 then 48 + (v - 52) else if v =? 62 then 43 else 47.
Fixpoint base64 (l : bytes) : bytes :=
  match l with
  | [] => []
  | [a] => [b64_char (a / 4); b64_char (a mod 4 * 16); 61; 61]
  | [a; b] => [b64_char (a / 4); b64_char (a mod 4 * 16 + b / 16); b64_char (b mod 16 * 4); 61]
  | a :: b :: c :: r =>
      b64_char (a / 4) :: b64_char (a mod 4 * 16 + b / 16) :: b64_char (b mod 16 * 4 + c / 64) :: b64_char (c mod 64) :: base64 r
  end.

(** ** Base 32 with extended hex alphabet, unpadded (RFC 4648 section 7, RFC 5155 section 3.3). *)
Definition b32_char (v : Z) : Z := if v <=? 9 then 48 + v else 65 + (v - 10).
Fixpoint base32hex (l : bytes) : bytes :=
  match l with
  | [] => []
  | [a] => map b32_char [a / 8; a mod 8 * 4]
  | [a; b] => map b32_char [a / 8; a mod 8 * 4 + b / 64; b / 2 mod 32; b mod 2 * 16]
  | [a; b; c] => map b32_char [a / 8; a mod 8 * 4 + b / 64; b / 2 mod 32; b mod 2 * 16 + c / 16; c mod 16 * 2]
  | [a; b; c; d] => map b32_char [a / 8; a mod 8 * 4 + b / 64; b / 2 mod 32; b mod 2 * 16 + c / 16; c mod 16 * 2 + d / 128;
      d / 4 mod 32; d mod 4 * 8]
  | a :: b :: c :: d :: e :: r =>
      map b32_char [a / 8; a mod 8 * 4 + b / 64; b / 2 mod 32; b mod 2 * 16 + c / 16; c mod 16 * 2 + d / 128;
        d / 4 mod 32; d mod 4 * 8 + e / 32; e mod 32] ++ base32hex r
  end.
