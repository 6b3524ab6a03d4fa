(** ModelOom2.v: printing when memory runs out, in the manner of ModelOom.v. The values are those of ModelToStr.v. The ubufs ask
    by my_malloc and my_realloc; only bytes_to_ubuf_base64 uses malloc. *)
From Verif Require Import Base Libc ModelName ModelDescr ModelParse ModelFormat ModelTables ModelToStr ModelOom.

Section Oom.
Variable fails : Z -> bool.
Notation "'grow' ~;; k" := (obind (must fails) (fun _ => k)) (at level 61, right associativity).

(** rdata_to_ubuf.c:64-81: base64_encode_block and _blockend store nothing when there is nothing to encode; memcpy from NULL is
    taken to do nothing when its size is 0; free(NULL) does nothing. *)
Definition to_base64_o (src : bytes) (n : Z) : om bytes :=
  b <~ raw fails ;;;
  use (b || (n =? 0)) ~;;
  grow ~;; olift (bytes_to_base64 src n).

(** rdata_to_ubuf.c:88-292. *)
Definition svcparam_to_str_o (key : Z) (src : bytes) (n : Z) : om (bytes * option res) :=
  if key =? spr_ech then t <~ to_base64_o src n ;;; grow ~;; oret (t ++ [32], None)
  else grow ~;; olift (svcparam_to_str key src n).

(** rdata_to_ubuf.c:575-626. *)
Fixpoint svcparams_text_o (fuel : nat) (src : bytes) (n : Z) : om (bytes * tflow) :=
  match fuel with
  | O => fun _ => ONoFuel
  | S k =>
    if n >? 0 then
      if n <? 2 then oret ([], TErr) else
      v <~ olift (take_rd src 2) ;;;
      let key := be16 (nth 0 v 0) (nth 1 v 0) in
      if key =? spr_invalid then oret ([], TErr) else
      grow ~;;
      let head := svckey_to_str key ++ (if negb (key =? spr_nd_alpn) then [61] else []) in
      let src := adv src 2 in let n := n - 2 in
      if n <? 2 then oret (head, TErr) else
      l <~ olift (take_rd src 2) ;;;
      let val_len := be16 (nth 0 l 0) (nth 1 l 0) in
      let src := adv src 2 in let n := n - 2 in
      if n <? val_len then oret (head, TErr) else
      x <~ svcparam_to_str_o key src val_len ;;;
      y <~ (match snd x with None => svcparams_text_o k (adv src val_len) (n - val_len) | Some r => oret ([], TRes r) end) ;;;
      oret ((head ++ fst x) ++ fst y, snd y)
    else oret ([], TNext src n)
  end.

(** rdata_to_ubuf.c:353-733. *)
Definition field_text_o (t : rdf) (src : bytes) (n : Z) : om (bytes * tflow) :=
  match t with
  | rdf_bytes_b64 => x <~ to_base64_o src n ;;; oret (x, TNext src 0)
  | rdf_svcparams => svcparams_text_o (S (length src)) src n
  | _ => grow ~;; olift (field_text t src n)
  end.

(** rdata_to_ubuf.c:349-734. *)
Fixpoint fields_text_o (ts : list rdf) (src : bytes) (n : Z) : om (bytes * tflow) :=
  match ts with
  | [] => oret ([], TNext src n)
  | t :: ts =>
    if n =? 0 then oret ([], TNext src n)
    else
    x <~ field_text_o t src n ;;;
    match snd x with
    | TNext src n => y <~ fields_text_o ts src n ;;; oret (fst x ++ fst y, snd y)
    | TErr => oret (fst x, TErr)
    | TRes r => oret (fst x, TRes r)
    end
  end.

(** rdata_to_ubuf.c:294-749: an append at the end; ubuf_clip (line 737) may give memory back by my_realloc. *)
Definition rdata_to_ubuf_o (u rdata : bytes) (rdlen rrtype rrclass : Z) : om bytes :=
  match lookup_descr rrtype with
  | None => grow ~;; olift (rdata_to_ubuf u rdata rdlen rrtype rrclass)
  | Some d =>
    if negb ((d_class d =? class_un) || (d_class d =? rrclass)) then oret u
    else
    x <~ fields_text_o (d_types d) rdata rdlen ;;;
    grow ~;;
    oret (match snd x with
          | TNext _ _ => strip_blank (u ++ fst x)
          | TErr => u ++ fst x ++ lit " ### PARSE ERROR ###"
          | TRes r => u ++ fst x ++ lit " ### PARSE ERROR #" ++ fmt_u (res_code r) ++ lit " ###"
          end)
  end.

(** rdata_to_str.c:21-31, rr_to_str.c:20-30, rrset_to_str.c:20-30, rrset_array_to_str.c:20-30, message_to_str.c:22-101: ubuf_new
    (two requests), the contents, ubuf_cterm, ubuf_detach. *)
Definition to_str_o (e : om bytes) : om bytes := grow ~;; grow ~;; t <~ e ;;; grow ~;; grow ~;; oret t.
Definition rdata_to_str_o (rdata : bytes) (rdlen rrtype rrclass : Z) : om bytes := to_str_o (rdata_to_ubuf_o [] rdata rdlen rrtype rrclass).

(** rr_to_ubuf.c:17-58. *)
Definition rr_to_ubuf_o (u : bytes) (r : rr) (sec : Z) : om bytes :=
  grow ~;;
  name <~ olift (domain_to_str (rr_name r) (zlen (rr_name r))) ;;;
  let u := if sec =? 0 then u ++ [59] else u in
  let u := u ++ fst name in
  ttl <~ olift (if negb (sec =? 0) then t <- u64_text 11 (rr_ttl r) ;; Ok ([32] ++ t) else Ok []) ;;;
  let u := u ++ ttl in
  let u := u ++ [32] ++ match rrclass_to_str (rr_class r) with Some s => s | None => lit "CLASS" ++ fmt_u (rr_class r) end in
  let u := u ++ [32] ++ match rrtype_to_str (rr_type r) with Some s => s | None => lit "TYPE" ++ fmt_u (rr_type r) end in
  u <~ (if negb (sec =? 0) then
          match rr_rdata r with
          | None => olift (UB NullDeref)
          | Some d => rdata_to_ubuf_o (u ++ [32]) d (zlen d) (rr_type r) (rr_class r)
          end
        else oret u) ;;;
  grow ~;; oret (u ++ [10]).
Definition rr_to_str_o (r : rr) (sec : Z) : om bytes := to_str_o (rr_to_ubuf_o [] r sec).

Fixpoint rrs_to_ubuf_o (u : bytes) (rs : list rr) (sec : Z) : om bytes :=
  match rs with [] => oret u | r :: rs => u <~ rr_to_ubuf_o u r sec ;;; rrs_to_ubuf_o u rs sec end.
(** rrset_to_ubuf.c:17-37. *)
Definition rrset_to_ubuf_o (u : bytes) (s : rrset) (sec : Z) : om bytes :=
  let mk d := {| rr_name := rs_name s; rr_type := rs_type s; rr_class := rs_class s; rr_ttl := rs_ttl s; rr_rdata := Some d |} in
  if sec =? 0 then
    match rs_rdatas s with [] => olift (UB NullDeref) | d :: _ => rrs_to_ubuf_o u [mk d] sec end
  else rrs_to_ubuf_o u (map mk (rs_rdatas s)) sec.
Definition rrset_to_str_o (s : rrset) (sec : Z) : om bytes := to_str_o (rrset_to_ubuf_o [] s sec).
(** rrset_array_to_ubuf.c:17-22. *)
Definition rrset_array_to_ubuf_o (u : bytes) (a : rrset_array) (sec : Z) : om bytes := rrs_to_ubuf_o u (a_rrs a) sec.
Definition rrset_array_to_str_o (a : rrset_array) (sec : Z) : om bytes := to_str_o (rrset_array_to_ubuf_o [] a sec).

(** message_to_str.c:61-86: a second ubuf for the options. *)
Definition edns_text_o (e : edns) : om bytes :=
  if negb (e_present e) then oret []
  else
  grow ~;;
  o <~ (match e_options e with
        | None => oret []
        | Some d => grow ~;; grow ~;; t <~ rdata_to_ubuf_o [] d (zlen d) 41 class_un ;;; grow ~;; grow ~;; olift (opt_lines (S (length t)) t)
        end) ;;;
  oret ([10] ++ lit ";; OPT PSEUDOSECTION:" ++ [10] ++ lit "; EDNS: version: " ++ fmt_u (e_version e) ++ lit ", flags:" ++
      on (negb (Z.land (e_flags e) 32768 =? 0)) (lit " do") ++ lit "; udp: " ++ fmt_u (e_size e) ++ o).
(** message_to_str.c:18-101. *)
Definition message_to_str_o (m : message) : om bytes := to_str_o (
  grow ~;;
  e <~ edns_text_o (m_edns m) ;;;
  let u := header_text m ++ e in
  u <~ rrset_array_to_ubuf_o (u ++ [10] ++ lit ";; QUESTION SECTION:" ++ [10]) (m_qd m) 0 ;;;
  u <~ rrset_array_to_ubuf_o (u ++ [10] ++ lit ";; ANSWER SECTION:" ++ [10]) (m_an m) 1 ;;;
  u <~ rrset_array_to_ubuf_o (u ++ [10] ++ lit ";; AUTHORITY SECTION:" ++ [10]) (m_ns m) 2 ;;;
  rrset_array_to_ubuf_o (u ++ [10] ++ lit ";; ADDITIONAL SECTION:" ++ [10]) (m_ar m) 3).
End Oom.
