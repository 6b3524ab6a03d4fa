(** ModelHeap.v: the allocations, frees and heap accesses of wdns_parse_message, wdns_clear_* and
    wdns_deserialize_rrset.

    What is read off the packet is computed by the functions of ModelParse.v; this file adds the memory the C code
    allocates.  A heap is a set of live blocks; addresses are never reused, so every access to a freed block, every
    double free and every leak is visible.  malloc, calloc and realloc always succeed (my_alloc.h aborts otherwise) and
    realloc always moves the block.  NULL is 0. *)
From Verif Require Import Base ModelName ModelDescr ModelParse.

Notation ptr := Z (only parsing).

(** wdns.h.in:214-220, wdns_rr_t as it lies in memory. *)
Record hrr := mkHrr { hr_len : Z; hr_name : ptr; hr_type : Z; hr_class : Z; hr_ttl : Z; hr_rdata : ptr }.
(** wdns.h.in:222-229, wdns_rrset_t. *)
Record hset := mkHset { hs_len : Z; hs_name : ptr; hs_type : Z; hs_class : Z; hs_ttl : Z; hs_n : Z; hs_rdatas : ptr }.
(** wdns.h.in:231-236, wdns_rrset_array_t. *)
Record harr := mkHarr { ha_nrrs : Z; ha_rrs : ptr; ha_nsets : Z; ha_sets : ptr }.
(** wdns.h.in:238-252, wdns_message_t. *)
Record hmsg := mkHmsg { hm_qd : harr; hm_an : harr; hm_ns : harr; hm_ar : harr;
  hm_present : bool; hm_version : Z; hm_eflags : Z; hm_size : Z; hm_options : ptr;
  hm_id : Z; hm_flags : Z; hm_rcode : Z }.

(** Contents of a block: the octets of a name or of a ubuf's data, a wdns_rdata_t (its len is the number of octets), an
    array of RRs, of RRsets, of rdata pointers, a ubuf structure (its _v), a wdns_name_t structure. *)
Inductive cell :=
| CBytes (l : bytes) | CRdata (l : bytes) | CRRs (l : list hrr) | CSets (l : list hset) | CPtrs (l : list ptr) | CUbuf (d : ptr)
| CName (len : Z) (d : ptr).

Record heap := mkHeap { h_next : Z; h_live : list (ptr * cell) }.

Inductive hfault :=
| BadFree            (* free of an address that is not a live block *)
| DeadAccess         (* access to an address that is not a live block *)
| WrongBlock         (* access outside the block or to a block of another kind *)
| PureFault (f : fault).

(** Outcome of a function on the heap; [HErr] is the return of an error code. *)
Inductive hout (A : Type) := HOk (a : A) (h : heap) | HErr (r : res) (h : heap) | HUB (f : hfault) | HNoFuel.
Arguments HOk {A} a h.
Arguments HErr {A} r h.
Arguments HUB {A} f.
Arguments HNoFuel {A}.

Definition hm (A : Type) := heap -> hout A.
Definition ret {A} (a : A) : hm A := fun h => HOk a h.
Definition hfail {A} (f : hfault) : hm A := fun _ => HUB f.
Definition herr {A} (r : res) : hm A := fun h => HErr r h.
Definition hbind {A B} (e : hm A) (k : A -> hm B) : hm B := fun h =>
  match e h with HOk a h => k a h | HErr r h => HErr r h | HUB f => HUB f | HNoFuel => HNoFuel end.
Notation "x <-- e ;;; k" := (hbind e (fun x => k)) (at level 61, e at next level, right associativity).
Notation "e ;;;; k" := (hbind e (fun _ => k)) (at level 61, right associativity).

(** A computation that does not touch the heap. *)
Definition lift {A} (o : outcome A) : hm A := fun h =>
  match o with Ok a => HOk a h | Err r => HErr r h | UB f => HUB (PureFault f) | NoFuel => HNoFuel end.

Fixpoint find_cell (p : ptr) (l : list (ptr * cell)) : option cell :=
  match l with [] => None | (q, c) :: l => if q =? p then Some c else find_cell p l end.
Definition drop_cell (p : ptr) (l : list (ptr * cell)) : list (ptr * cell) := filter (fun x => negb (fst x =? p)) l.

(** malloc. *)
Definition alloc (c : cell) : hm ptr := fun h => HOk (h_next h) (mkHeap (h_next h + 1) ((h_next h, c) :: h_live h)).

(** free; free(NULL) does nothing. *)
Definition free (p : ptr) : hm unit := fun h =>
  if p =? 0 then HOk tt h
  else match find_cell p (h_live h) with
       | None => HUB BadFree
       | Some _ => HOk tt (mkHeap (h_next h) (drop_cell p (h_live h)))
       end.

Definition load (p : ptr) : hm cell := fun h =>
  if p =? 0 then HUB (PureFault NullDeref)
  else match find_cell p (h_live h) with None => HUB DeadAccess | Some c => HOk c h end.

Definition store (p : ptr) (c : cell) : hm unit := fun h =>
  if p =? 0 then HUB (PureFault NullDeref)
  else match find_cell p (h_live h) with
       | None => HUB DeadAccess
       | Some _ => HOk tt (mkHeap (h_next h) ((p, c) :: drop_cell p (h_live h)))
       end.

Definition load_bytes (p : ptr) : hm bytes := c <-- load p ;;; match c with CBytes l => ret l | _ => hfail WrongBlock end.
Definition load_rdata_h (p : ptr) : hm bytes := c <-- load p ;;; match c with CRdata l => ret l | _ => hfail WrongBlock end.
Definition load_rrs (p : ptr) : hm (list hrr) := c <-- load p ;;; match c with CRRs l => ret l | _ => hfail WrongBlock end.
Definition load_sets (p : ptr) : hm (list hset) := c <-- load p ;;; match c with CSets l => ret l | _ => hfail WrongBlock end.
Definition load_ptrs (p : ptr) : hm (list ptr) := c <-- load p ;;; match c with CPtrs l => ret l | _ => hfail WrongBlock end.
Definition load_ubuf (p : ptr) : hm ptr := c <-- load p ;;; match c with CUbuf d => ret d | _ => hfail WrongBlock end.

Definition load_name (p : ptr) : hm (Z * ptr) := c <-- load p ;;; match c with CName n d => ret (n, d) | _ => hfail WrongBlock end.

(** Element [i] of an array and its update. *)
Definition elem {A} (l : list A) (i : Z) : hm A :=
  if i <? 0 then hfail WrongBlock else match nth_error l (Z.to_nat i) with Some a => ret a | None => hfail WrongBlock end.
Definition upd {A} (l : list A) (i : Z) (a : A) : hm (list A) :=
  if (i <? 0) || (zlen l <=? i) then hfail WrongBlock
  else ret (firstn (Z.to_nat i) l ++ a :: skipn (Z.to_nat i + 1) l).

(** realloc of an array to [n] elements: the old ones that fit, then cells with unknown contents [d]. *)
Definition resize {A} (d : A) (n : Z) (l : list A) : list A :=
  firstn (Z.to_nat n) l ++ repeat d (Z.to_nat n - length l).
(** Unknown contents: pointers that are never live. *)
Definition hrr0 := mkHrr (-1) (-1) (-1) (-1) (-1) (-1).
Definition hset0 := mkHset (-1) (-1) (-1) (-1) (-1) (-1) (-1).
Definition realloc_rrs (p : ptr) (n : Z) : hm ptr :=
  if p =? 0 then alloc (CRRs (resize hrr0 n [])) else (l <-- load_rrs p ;;; free p ;;;; alloc (CRRs (resize hrr0 n l))).
Definition realloc_sets (p : ptr) (n : Z) : hm ptr :=
  if p =? 0 then alloc (CSets (resize hset0 n [])) else (l <-- load_sets p ;;; free p ;;;; alloc (CSets (resize hset0 n l))).
Definition realloc_ptrs (p : ptr) (n : Z) : hm ptr :=
  if p =? 0 then alloc (CPtrs (resize (-1) n [])) else (l <-- load_ptrs p ;;; free p ;;;; alloc (CPtrs (resize (-1) n l))).

(** [for (i = ...; n times; i++) body]. *)
Fixpoint hfor (n : nat) (i : Z) (body : Z -> hm unit) : hm unit :=
  match n with O => ret tt | S n => body i ;;;; hfor n (i + 1) body end.

(** ** wdns/clear.c *)

(** clear.c:17-22, wdns_clear_rr; my_free also stores NULL (my_alloc.h:42). *)
Definition clear_rr_h (x : hrr) : hm hrr :=
  free (hr_name x) ;;;; free (hr_rdata x) ;;;;
  ret (mkHrr (hr_len x) 0 (hr_type x) (hr_class x) (hr_ttl x) 0).

(** clear.c:24-32, wdns_clear_rrset. *)
Definition clear_rrset_rdata (p : ptr) (i : Z) : hm unit :=
  ps <-- load_ptrs p ;;; q <-- elem ps i ;;; free q ;;;; ps <-- upd ps i 0 ;;; store p (CPtrs ps).
Definition clear_rrset_h (x : hset) : hm hset :=
  hfor (Z.to_nat (hs_n x)) 0 (clear_rrset_rdata (hs_rdatas x)) ;;;;
  free (hs_name x) ;;;; free (hs_rdatas x) ;;;;
  ret (mkHset (hs_len x) 0 (hs_type x) (hs_class x) (hs_ttl x) 0 0).

(** clear.c:34-46, wdns_clear_rrset_array. *)
Definition clear_array_rr (p : ptr) (i : Z) : hm unit :=
  l <-- load_rrs p ;;; x <-- elem l i ;;; x <-- clear_rr_h x ;;; l <-- load_rrs p ;;; l <-- upd l i x ;;; store p (CRRs l).
Definition clear_array_set (p : ptr) (i : Z) : hm unit :=
  l <-- load_sets p ;;; x <-- elem l i ;;; x <-- clear_rrset_h x ;;; l <-- load_sets p ;;; l <-- upd l i x ;;; store p (CSets l).
Definition clear_array_h (a : harr) : hm harr :=
  hfor (Z.to_nat (ha_nrrs a)) 0 (clear_array_rr (ha_rrs a)) ;;;;
  free (ha_rrs a) ;;;;
  hfor (Z.to_nat (ha_nsets a)) 0 (clear_array_set (ha_sets a)) ;;;;
  free (ha_sets a) ;;;;
  ret (mkHarr 0 0 0 0).

(** clear.c:48-55, wdns_clear_message. *)
Definition clear_message_h (m : hmsg) : hm hmsg :=
  free (hm_options m) ;;;;
  qd <-- clear_array_h (hm_qd m) ;;; an <-- clear_array_h (hm_an m) ;;; ns <-- clear_array_h (hm_ns m) ;;; ar <-- clear_array_h (hm_ar m) ;;;
  ret (mkHmsg qd an ns ar false (hm_version m) (hm_eflags m) (hm_size m) 0 (hm_id m) (hm_flags m) (hm_rcode m)).

(** ** libmy/ubuf.h *)

(** vector.h:27-38 with ubuf.h:33-37, and vector.h:60-68.  The contents of a ubuf are kept by ModelVector.v; here the
    data block is reallocated once, when its final contents are known. *)
Definition ubuf_new_h : hm ptr :=
  u <-- alloc (CUbuf 0) ;;; d <-- alloc (CBytes []) ;;; store u (CUbuf d) ;;;; ret u.
Definition ubuf_fill (u : ptr) (l : bytes) : hm unit :=
  d <-- load_ubuf u ;;; _ <-- load_bytes d ;;; free d ;;;; d <-- alloc (CBytes l) ;;; store u (CUbuf d).
Definition ubuf_destroy_h (u : ptr) : hm unit :=
  if u =? 0 then ret tt else (d <-- load_ubuf u ;;; free d ;;;; free u).

(** ** The parser *)

(** wdns/parse_rdata.c:110-345: the ubuf is destroyed on both exits (lines 335 and 340). Result: rr->rdata. *)
Definition parse_rdata_h (fuel : nat) (m : bytes) (eop rrtype rrclass rdata rdlen : Z) : hm ptr :=
  u <-- ubuf_new_h ;;;
  match parse_rdata fuel m eop rrtype rrclass rdata rdlen with
  | Ok d => ubuf_fill u d ;;;; q <-- alloc (CRdata (repeat (-1) (length d))) ;;; b <-- load_ubuf u ;;; l <-- load_bytes b ;;;
            store q (CRdata l) ;;;; ubuf_destroy_h u ;;;; ret q
  | Err r => ubuf_destroy_h u ;;;; herr r
  | UB f => hfail (PureFault f)
  | NoFuel => fun _ => HNoFuel
  end.

(** The part of wdns/parse_message_rr.c:28-98 after the owner name has been copied to the block [np] (lines 46-93). *)
Definition parse_rr_body (fuel : nat) (sec : Z) (m : bytes) (eop data : Z) (nlen : Z) (np : ptr) : hm (hrr * Z) :=
  src <-- lift (skip_name m eop data) ;;;
  if (src + 4 >? eop) || (negb (sec =? 0) && (src + 10 >? eop)) then herr res_parse_error
  else
  rrtype <-- lift (get16 m src) ;;;
  let src := src + 2 in
  rrclass <-- lift (get16 m src) ;;;
  let src := src + 2 in
  if sec =? 0 then ret (mkHrr nlen np rrtype rrclass 0 0, src - data)
  else
  rrttl <-- lift (get32 m src) ;;;
  let src := src + 4 in
  rdlen <-- lift (get16 m src) ;;;
  let src := src + 2 in
  if src + rdlen >? eop then herr res_overflow
  else
  q <-- parse_rdata_h fuel m eop rrtype rrclass src rdlen ;;;
  ret (mkHrr nlen np rrtype rrclass rrttl q, src - data + rdlen).

(** wdns/parse_message_rr.c:28-98: name.len is a uint8_t; on [goto err] (lines 95-97) the name is freed, the rdata is not
    touched. *)
Definition parse_message_rr_h (fuel : nat) (sec : Z) (m : bytes) (eop data : Z) : hm (hrr * Z) :=
  nl <-- lift (unpack_name m eop data) ;;;
  let name := fst nl in
  np <-- alloc (CBytes name) ;;;
  fun h =>
    match parse_rr_body fuel sec m eop data (zlen name mod 256) np h with
    | HErr r h => (free np ;;;; herr r) h
    | x => x
    end.

(** wdns/compare_rr_rrset.c:29-53; the copies are on the stack (alloca). *)
Definition compare_h (r : hrr) (s : hset) : hm bool :=
  if (hr_len r =? hs_len s) && (hr_type r =? hs_type s) && (hr_class r =? hs_class s) then
    a <-- load_bytes (hr_name r) ;;; b <-- load_bytes (hs_name s) ;;;
    if (zlen a <? hr_len r) || (zlen b <? hs_len s) then hfail WrongBlock
    else ret (if list_eq_dec Z.eq_dec (map dc (firstn (Z.to_nat (hr_len r)) a)) (map dc (firstn (Z.to_nat (hs_len s)) b)) then true else false)
  else ret false.

(** wdns/insert_rr_rrset_array.c:59-66, the backwards search: [i] RRsets are left. *)
Fixpoint search_h (i : nat) (sec : Z) (r : hrr) (sets : ptr) : hm (option Z) :=
  match i with
  | O => ret None
  | S j =>
    if sec =? 0 then ret None
    else
    l <-- load_sets sets ;;; s <-- elem l (Z.of_nat j) ;;; b <-- compare_h r s ;;;
    if b then ret (Some (Z.of_nat j)) else search_h j sec r sets
  end.

(** wdns/insert_rr_rrset_array.c:36-57: the copy kept in the RR array. Counters are uint16_t. *)
Definition add_rr_h (a : harr) (r : hrr) (sec : Z) : hm harr :=
  let n := (ha_nrrs a + 1) mod 2 ^ 16 in
  p <-- realloc_rrs (ha_rrs a) n ;;;
  nm <-- load_bytes (hr_name r) ;;;
  np <-- (if zlen nm <? hr_len r then hfail WrongBlock else alloc (CBytes (firstn (Z.to_nat (hr_len r)) nm))) ;;;
  q <-- (if negb (sec =? 0) then (d <-- load_rdata_h (hr_rdata r) ;;; alloc (CRdata d)) else ret 0) ;;;
  l <-- load_rrs p ;;;
  l <-- upd l (n - 1) (mkHrr (hr_len r) np (hr_type r) (hr_class r) (hr_ttl r) q) ;;;
  store p (CRRs l) ;;;;
  ret (mkHarr n p (ha_nsets a) (ha_sets a)).

(** wdns/insert_rr_rrset_array.c:67-85: the RR joins RRset [j]. Result: what is left of the RR. *)
Definition join_h (a : harr) (r : hrr) (j : Z) : hm hrr :=
  l <-- load_sets (ha_sets a) ;;;
  s <-- elem l j ;;;
  let n := (hs_n s + 1) mod 2 ^ 16 in
  q <-- realloc_ptrs (hs_rdatas s) n ;;;
  ps <-- load_ptrs q ;;;
  ps <-- upd ps (n - 1) (hr_rdata r) ;;;
  store q (CPtrs ps) ;;;;
  l <-- upd l j (mkHset (hs_len s) (hs_name s) (hs_type s) (hs_class s)
                   (if hr_ttl r <? hs_ttl s then hr_ttl r else hs_ttl s) n q) ;;;
  store (ha_sets a) (CSets l) ;;;;
  ret (mkHrr (hr_len r) (hr_name r) (hr_type r) (hr_class r) (hr_ttl r) 0).

(** wdns/insert_rr_rrset_array.c:88-115: a new RRset takes the owner name and the rdata. *)
Definition new_set_h (a : harr) (r : hrr) (sec : Z) : hm (harr * hrr) :=
  let n := (ha_nsets a + 1) mod 2 ^ 16 in
  p <-- realloc_sets (ha_sets a) n ;;;
  q <-- (if negb (sec =? 0) then alloc (CPtrs [-1]) else ret 0) ;;;
  (if negb (sec =? 0) then (ps <-- load_ptrs q ;;; ps <-- upd ps 0 (hr_rdata r) ;;; store q (CPtrs ps)) else ret tt) ;;;;
  l <-- load_sets p ;;;
  l <-- upd l (n - 1) (mkHset (hr_len r) (hr_name r) (hr_type r) (hr_class r) (hr_ttl r) (if negb (sec =? 0) then 1 else 0) q) ;;;
  store p (CSets l) ;;;;
  ret (mkHarr (ha_nrrs a) (ha_rrs a) n p,
       mkHrr 0 0 (hr_type r) (hr_class r) (hr_ttl r) (if negb (sec =? 0) then 0 else hr_rdata r)).

(** wdns/insert_rr_rrset_array.c:28-119. *)
Definition insert_h (a : harr) (r : hrr) (sec : Z) : hm harr :=
  a <-- add_rr_h a r sec ;;;
  found <-- search_h (Z.to_nat (ha_nsets a)) sec r (ha_sets a) ;;;
  match found with
  | Some j => r <-- join_h a r j ;;; clear_rr_h r ;;;; ret a
  | None => ar <-- new_set_h a r sec ;;; clear_rr_h (snd ar) ;;;; ret (fst ar)
  end.

(** wdns/parse_edns.c:17-32; wdns_clear_rr then frees the owner name. *)
Definition parse_edns_h (m : hmsg) (r : hrr) : hm hmsg :=
  clear_rr_h (mkHrr (hr_len r) (hr_name r) (hr_type r) (hr_class r) (hr_ttl r) 0) ;;;;
  ret (mkHmsg (hm_qd m) (hm_an m) (hm_ns m) (hm_ar m) true (Z.land (Z.shiftr (hr_ttl r) 16) 255)
         (Z.land (hr_ttl r) 65535) (hr_class r) (hr_rdata r) (hm_id m) (hm_flags m)
         (Z.lor (hm_rcode m) (Z.land (Z.shiftr (hr_ttl r) 16) 65280))).

Definition hget_sec (m : hmsg) (sec : Z) : harr :=
  if sec =? 0 then hm_qd m else if sec =? 1 then hm_an m else if sec =? 2 then hm_ns m else hm_ar m.
Definition hset_sec (m : hmsg) (sec : Z) (a : harr) : hmsg :=
  mkHmsg (if sec =? 0 then a else hm_qd m) (if sec =? 1 then a else hm_an m) (if sec =? 2 then a else hm_ns m)
    (if sec =? 3 then a else hm_ar m) (hm_present m) (hm_version m) (hm_eflags m) (hm_size m) (hm_options m)
    (hm_id m) (hm_flags m) (hm_rcode m).

Inductive hflow := HContinue (p : Z) (m : hmsg) | HReturn (r : res) (m : hmsg).

(** wdns/parse_message.c:43-69.  _wdns_parse_edns and _wdns_insert_rr_rrset_array only return success, so the label err
    (lines 73-76) is not reached. *)
Fixpoint parse_section_h (fuel n : nat) (sec : Z) (pkt : bytes) (len : Z) (p : Z) (m : hmsg) : hm hflow :=
  match n with
  | O => ret (HContinue p m)
  | S n' =>
    if p =? len then ret (HReturn res_success m)
    else fun h =>
    match parse_message_rr_h fuel sec pkt len p h with
    | HOk (r, rrlen) h =>
        (if (hr_type r =? 41) && negb (hm_present m) then
           m <-- parse_edns_h m r ;;; parse_section_h fuel n' sec pkt len (p + rrlen) m
         else
           a <-- insert_h (hget_sec m sec) r sec ;;; parse_section_h fuel n' sec pkt len (p + rrlen) (hset_sec m sec a)) h
    | HErr e h => (m <-- clear_message_h m ;;; ret (HReturn e m)) h
    | HUB f => HUB f
    | HNoFuel => HNoFuel
    end
  end.

(** wdns/parse_message.c:42-70. *)
Fixpoint parse_sections_h (fuel : nat) (secs : list (Z * Z)) (pkt : bytes) (len : Z) (p : Z) (m : hmsg) : hm (res * hmsg) :=
  match secs with
  | [] => ret (res_success, m)
  | (sec, count) :: secs' =>
    fl <-- parse_section_h fuel (Z.to_nat count) sec pkt len p m ;;;
    match fl with
    | HContinue p m => parse_sections_h fuel secs' pkt len p m
    | HReturn r m => ret (r, m)
    end
  end.

Definition harr0 := mkHarr 0 0 0 0.
Definition hmsg0 := mkHmsg harr0 harr0 harr0 harr0 false 0 0 0 0 0 0 0.

(** wdns/parse_message.c:18-78. *)
Definition parse_message_h (fuel : nat) (pkt : bytes) (len : Z) : hm (res * hmsg) :=
  if len <? 12 then ret (res_len, hmsg0)
  else
  id <-- lift (get16 pkt 0) ;;; flags <-- lift (get16 pkt 2) ;;;
  qd <-- lift (get16 pkt 4) ;;; an <-- lift (get16 pkt 6) ;;; ns <-- lift (get16 pkt 8) ;;; ar <-- lift (get16 pkt 10) ;;;
  parse_sections_h fuel [(0, qd); (1, an); (2, ns); (3, ar)] pkt len 12
    (mkHmsg harr0 harr0 harr0 harr0 false 0 0 0 0 id flags (Z.land flags 15)).
