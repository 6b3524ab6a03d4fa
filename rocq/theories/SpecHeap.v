(** SpecHeap.v: which blocks a parsed message owns, and what they hold. *)
From Verif Require Import Base ModelParse ModelHeap.
From Coq Require Import Permutation.

(** A sound heap: every live block has its own address, positive and below the next one. *)
Definition heap_ok (h : heap) : Prop :=
  NoDup (map fst (h_live h)) /\ Forall (fun x => 0 < fst x < h_next h) (h_live h) /\ 0 < h_next h.

(** The live blocks of [h] are exactly those of [L] (order does not matter). *)
Definition owns (h : heap) (L : list (ptr * cell)) : Prop := heap_ok h /\ Permutation (h_live h) L.

(** An optional block at [p]. *)
Definition block (p : ptr) (c : cell) : list (ptr * cell) := if p =? 0 then [] else [(p, c)].

(** An RR structure [x] that represents the RR [r] and owns the blocks of the third argument. *)
Definition own_rr (r : rr) (x : hrr) (fp : list (ptr * cell)) : Prop :=
  hr_len x = zlen (rr_name r) /\ zlen (rr_name r) <= 255 /\ hr_type x = rr_type r /\ hr_class x = rr_class r /\ hr_ttl x = rr_ttl r /\
  match rr_rdata r with
  | None => hr_rdata x = 0 /\ fp = [(hr_name x, CBytes (rr_name r))]
  | Some d => fp = [(hr_name x, CBytes (rr_name r)); (hr_rdata x, CRdata d)]
  end.

(** The same for an RRset. *)
Definition own_set (s : rrset) (x : hset) (fp : list (ptr * cell)) : Prop :=
  hs_len x = zlen (rs_name s) /\ zlen (rs_name s) <= 255 /\ hs_type x = rs_type s /\ hs_class x = rs_class s /\ hs_ttl x = rs_ttl s /\
  hs_n x = zlen (rs_rdatas s) /\
  exists ps, length ps = length (rs_rdatas s) /\ (hs_rdatas x = 0 -> ps = []) /\
    fp = (hs_name x, CBytes (rs_name s)) :: block (hs_rdatas x) (CPtrs ps) ++ combine ps (map CRdata (rs_rdatas s)).

(** Arrays of them. *)
Inductive own_list {A B} (own : A -> B -> list (ptr * cell) -> Prop) : list A -> list B -> list (ptr * cell) -> Prop :=
| ol_nil : own_list own [] [] []
| ol_cons : forall a l b m f g, own a b f -> own_list own l m g -> own_list own (a :: l) (b :: m) (f ++ g).

Definition own_arr (a : rrset_array) (x : harr) (fp : list (ptr * cell)) : Prop :=
  exists xs f1 ys f2, own_list own_rr (a_rrs a) xs f1 /\ own_list own_set (a_rrsets a) ys f2 /\
    ha_nrrs x = zlen xs /\ ha_nsets x = zlen ys /\ (ha_rrs x = 0 -> xs = []) /\ (ha_sets x = 0 -> ys = []) /\
    fp = block (ha_rrs x) (CRRs xs) ++ f1 ++ block (ha_sets x) (CSets ys) ++ f2.

Definition own_msg (m : message) (x : hmsg) (fp : list (ptr * cell)) : Prop :=
  exists f0 f1 f2 f3, own_arr (m_qd m) (hm_qd x) f0 /\ own_arr (m_an m) (hm_an x) f1 /\
    own_arr (m_ns m) (hm_ns x) f2 /\ own_arr (m_ar m) (hm_ar x) f3 /\
    hm_present x = e_present (m_edns m) /\ hm_version x = e_version (m_edns m) /\ hm_eflags x = e_flags (m_edns m) /\
    hm_size x = e_size (m_edns m) /\ hm_id x = m_id m /\ hm_flags x = m_flags m /\ hm_rcode x = m_rcode m /\
    match e_options (m_edns m) with
    | None => hm_options x = 0 /\ fp = f0 ++ f1 ++ f2 ++ f3
    | Some d => fp = (hm_options x, CRdata d) :: f0 ++ f1 ++ f2 ++ f3
    end.

(** ** Programs that parse and clear

    A client with some wdns_message_t variables, zeroed at the start, that parses packets into them and clears them in
    any order. *)
Inductive op := OParse (i : Z) (pkt : bytes) | OClear (i : Z).

Fixpoint run (fuel : nat) (ops : list op) (slots : list hmsg) : hm (list hmsg) :=
  match ops with
  | [] => ret slots
  | OParse i pkt :: ops => x <-- parse_message_h fuel pkt (zlen pkt) ;;; slots <-- upd slots i (snd x) ;;; run fuel ops slots
  | OClear i :: ops => x <-- elem slots i ;;; x <-- clear_message_h x ;;; slots <-- upd slots i x ;;; run fuel ops slots
  end.

(** What each variable holds for the client: [None] when it has been cleared (or never used, or the parse failed),
    [Some M] after a successful parse. The client follows the rule of the API: it never parses into a variable that still
    holds a message. [client ops s s']: the operations are allowed and end with [s']. *)
Inductive client (fuel : nat) : list op -> list (option message) -> list (option message) -> Prop :=
| cl_nil : forall s, client fuel [] s s
| cl_parse : forall pkt a b r M ops s', bytes_ok pkt -> parse_message fuel pkt (zlen pkt) = Ok (r, M) ->
    client fuel ops (a ++ (match r with res_success => Some M | _ => None end) :: b) s' ->
    client fuel (OParse (zlen a) pkt :: ops) (a ++ None :: b) s'
| cl_clear : forall a o b ops s', client fuel ops (a ++ None :: b) s' -> client fuel (OClear (zlen a) :: ops) (a ++ o :: b) s'.

(** The structures of a list of variables, and the blocks they own: none for a cleared one. *)
Definition own_slot (o : option message) (x : hmsg) (fp : list (ptr * cell)) : Prop :=
  match o with
  | Some M => own_msg M x fp
  | None => fp = [] /\ hm_options x = 0 /\ hm_present x = false /\ hm_qd x = harr0 /\ hm_an x = harr0 /\ hm_ns x = harr0 /\ hm_ar x = harr0
  end.
