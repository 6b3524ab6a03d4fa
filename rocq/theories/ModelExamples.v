(** ModelExamples.v: the example programs (examples/ *.c) as whole programs: arguments in, what is written to stdout and stderr
    and the exit status out. DEBUG is off, so VERBOSE prints nothing (examples/private.h:17-21). malloc succeeds. Freeing
    (freefunc, free(rawdata)) is not repeated here: ModelHeap.v, ModelHeap2.v. alloca of any size succeeds. *)
From Coq Require Strings.String.
From Verif Require Import Base Lib Libc ModelName ModelParse ModelRRset ModelToStr ModelFromStr ModelLibmyText.

Record run := { r_out : bytes; r_err : bytes; r_status : Z }.
(** EXIT_SUCCESS and EXIT_FAILURE. *)
Definition exit_success : Z := 0.
Definition exit_failure : Z := 1.

(** fputs in wdns/print_message.c:17-27, wdns/print_rrset.c:17-27: the string up to its NUL. *)
Definition fputs (s : bytes) : bytes := cstr s.

(** examples/wdns-hex-driver.c:9-40, 42-76: hex_to_int and hex_decode are the code of libmy/hex_decode.h:27-86 with a printf in
    front of the "return false" of hex_to_int; the first failure leaves hex_decode, so it is printed once. Also gives what is
    written to stdout. *)
Definition driver_decode (hex : bytes) : outcome (option bytes * bytes) :=
  r <- hex_decode hex ;;
  let hexlen := zlen hex in
  Ok (r, match r with
         | Some _ => []
         | None => if (hexlen =? 0) || negb (hexlen mod 2 =? 0) then [] else lit "hex_to_int() failed" ++ [10]
         end).

(** examples/wdns-hex-driver.c:79-107, main. [load]: loadfunc (None: false); [test]: testfunc, what it writes to stdout and
    stderr (its result is not looked at). argv[0] is NULL for argc = 0. *)
Definition hex_driver {A : Type} (load : bytes -> outcome (option A)) (test : A -> outcome (bytes * bytes)) (argv : list bytes) : outcome run :=
  match argv with
  | [_; hex] =>
      x <- driver_decode hex ;;
      match x with
      | (None, o) => Ok {| r_out := o; r_err := lit "Error: unable to decode hex" ++ [10]; r_status := exit_failure |}
      | (Some raw, o) =>
          l <- load raw ;;
          match l with
          | None => Ok {| r_out := o; r_err := lit "Error: load function failed" ++ [10]; r_status := exit_failure |}
          | Some a => t <- test a ;; let '(o2, e2) := t in Ok {| r_out := o ++ o2; r_err := e2; r_status := exit_success |}
          end
      end
  | [] => UB NullDeref
  | a0 :: _ => Ok {| r_out := []; r_err := lit "Usage: " ++ a0 ++ lit " <HEXDATA>" ++ [10]; r_status := exit_failure |}
  end.

(** examples/wdns-test-print-message.c:11-19 and wdns-test-serialize-rrset.c:11-19, loadfunc. The data is the malloc'ed block:
    nothing behind it may be read. *)
Definition load_message (fuel : nat) (data : bytes) : outcome (option message) :=
  x <- parse_message fuel data (zlen data) ;;
  let '(r, m) := x in match r with res_success => Ok (Some m) | _ => Ok None end.
(** examples/wdns-test-print-message.c:27-32, testfunc. *)
Definition test_print_message (m : message) : outcome (bytes * bytes) := t <- message_to_str m ;; Ok (fputs t, []).
Definition prog_print_message (fuel : nat) : list bytes -> outcome run := hex_driver (load_message fuel) test_print_message.

(** The fields of the wdns_rrset_t, dereferenced. *)
Fixpoint all_some (l : list (option bytes)) : outcome (list bytes) :=
  match l with [] => Ok [] | None :: _ => UB NullDeref | Some d :: l => r <- all_some l ;; Ok (d :: r) end.
Definition rrset_of (o : rrset_obj) : outcome rrset :=
  match o_name o, o_rdatas o with
  | Some n, Some l =>
      if negb (zlen l =? o_n_rdatas o) then UB OobRead else
      if negb (zlen n =? o_name_len o) then UB OobRead else
      ds <- all_some l ;; Ok {| rs_name := n; rs_type := o_type o; rs_class := o_class o; rs_ttl := o_ttl o; rs_rdatas := ds |}
  | _, _ => UB NullDeref
  end.
(** examples/wdns-test-deserialize-rrset.c:11-19 and wdns-test-downcase-rrset.c:11-19, loadfunc. *)
Definition load_rrset (big : bool) (data : bytes) : outcome (option rrset) :=
  x <- deserialize_rrset big data (zlen data) ;;
  let '(r, o) := x in match r with res_success => s <- rrset_of o ;; Ok (Some s) | _ => Ok None end.
(** examples/wdns-test-deserialize-rrset.c:27-32, testfunc; WDNS_MSG_SEC_ANSWER is 1 (wdns.h.in). *)
Definition test_print_rrset (s : rrset) : outcome (bytes * bytes) := t <- rrset_to_str s 1 ;; Ok (fputs t, []).
Definition prog_deserialize (big : bool) : list bytes -> outcome run := hex_driver (load_rrset big) test_print_rrset.

(** examples/wdns-test-downcase-rrset.c:27-36, testfunc. *)
Definition test_downcase (s : rrset) : outcome (bytes * bytes) :=
  x <- downcase_rrset s ;;
  let '(r, s) := x in match r with res_success => test_print_rrset s | _ => Ok ([], []) end.
Definition prog_downcase (big : bool) : list bytes -> outcome run := hex_driver (load_rrset big) test_downcase.

(** examples/wdns-test-serialize-rrset.c:28-33, print_data: "%02x" for each octet, then a newline. *)
Definition print_data (d : bytes) : bytes := concat (map (fun c => [hex_char (c / 16); hex_char (c mod 16)]) d) ++ [10].
(** examples/wdns-test-serialize-rrset.c:43-50, the inner loop: size, buffer of that size, contents. *)
Fixpoint dump_rrsets (big : bool) (l : list rrset) : outcome bytes :=
  match l with
  | [] => Ok []
  | s :: l => let sz := serialize_size s in buf <- serialize_rrset big sz s ;; r <- dump_rrsets big l ;; Ok (print_data buf ++ r)
  end.
(** examples/wdns-test-serialize-rrset.c:35-54, testfunc: sections 1 to 3. *)
Definition test_serialize (big : bool) (m : message) : outcome (bytes * bytes) :=
  a <- dump_rrsets big (a_rrsets (m_an m)) ;; n <- dump_rrsets big (a_rrsets (m_ns m)) ;; r <- dump_rrsets big (a_rrsets (m_ar m)) ;;
  Ok ([], a ++ n ++ r).
Definition prog_serialize (big : bool) (fuel : nat) : list bytes -> outcome run := hex_driver (load_message fuel) (test_serialize big).

(** examples/wdns-dump-file.c:14-31, process_data. *)
Definition process_data (fuel : nat) (data : bytes) (len : Z) : outcome run :=
  x <- parse_message fuel data len ;;
  let '(r, m) := x in
  match r with
  | res_success => t <- message_to_str m ;; Ok {| r_out := fputs t ++ [10]; r_err := []; r_status := exit_success |}
  | _ => Ok {| r_out := []; r_err := []; r_status := exit_failure |}
  end.
(** What fopen and fread make of the file named on the command line. *)
Inductive file := no_file (strerror : bytes) | read_error | contents (data : bytes).
(** examples/wdns-dump-file.c:33-66, main. data[4096] is zeroed; fread stops at the end of the file (feof) or after 4096 octets
    (not feof, even if the file has exactly 4096). *)
Definition prog_dump_file (fuel : nat) (fs : bytes -> file) (argv : list bytes) : outcome run :=
  match argv with
  | [_; path] =>
      match fs path with
      | no_file e => Ok {| r_out := []; r_err := lit "Error: unable to open " ++ path ++ lit ": " ++ e ++ [10]; r_status := exit_failure |}
      | read_error => Ok {| r_out := []; r_err := lit "Error: fread() returned an error on " ++ path ++ [10]; r_status := exit_failure |}
      | contents f =>
          if zlen f <? 4096 then process_data fuel (f ++ repeat 0 (Z.to_nat (4096 - zlen f))) (zlen f)
          else Ok {| r_out := []; r_err := lit "Error: did not make a complete read of " ++ path ++ [10]; r_status := exit_failure |}
      end
  | [] => UB NullDeref
  | a0 :: _ => Ok {| r_out := []; r_err := lit "Usage: " ++ a0 ++ lit " <INFILE>" ++ [10]; r_status := exit_failure |}
  end.

(** examples/wdns-dump-pcap.c:20, getu16. *)
Definition getu16 (p : bytes) (i : Z) : outcome Z := a <- rd p i ;; b <- rd p (i + 1) ;; Ok (256 * a + b).
(** examples/wdns-dump-pcap.c:32-98, packet_handler: what is printed, and whether the packet is dumped. [pkt]: the caplen octets
    that were captured; len is a uint32_t. Moving a pointer beyond the end is harmless here, dereferencing it is not. *)
Definition packet_handler (fuel : nat) (pkt : bytes) : outcome (bytes * bool) :=
  let p := pkt in
  let len := zlen pkt in
  if len <? 14 then Ok ([], false) else
  let p := adv p 12 in let len := len - 12 in
  e_type <- getu16 p 0 ;;
  let p := adv p 2 in let len := len - 2 in
  if negb (e_type =? 2048) then Ok ([], false) else
  b <- hd_rd p ;;
  let ihl := Z.land b 15 in
  if len <? ihl * 4 then Ok ([], false) else
  ip_len <- getu16 p 2 ;;
  let len := if ip_len <? len then ip_len else len in
  let p := adv p (ihl * 4) in let len := (len - ihl * 4) mod 2 ^ 32 in
  if len <? 8 then Ok ([], false) else
  let p := adv p 8 in let len := len - 8 in
  if len <? 12 then Ok ([], false) else
  x <- parse_message fuel p len ;;
  let '(r, m) := x in
  match r with
  | res_success => t <- message_to_str m ;; Ok (fputs t, false)
  | _ => Ok ([], true)
  end.
(** examples/wdns-dump-pcap.c:26-30, 100-146: pcap_loop calls the handler for each packet the filter passes; the numbers are
    printed to stderr at the end. [pkts]: those packets. Result: stdout, the packets written to the output file, count,
    count_dump. *)
Fixpoint pcap_loop (fuel : nat) (pkts : list bytes) : outcome (bytes * list bytes) :=
  match pkts with
  | [] => Ok ([], [])
  | p :: pkts => x <- packet_handler fuel p ;; let '(o, d) := x in y <- pcap_loop fuel pkts ;; let '(o2, l) := y in
      Ok (o ++ o2, (if d then [p] else []) ++ l)
  end.
