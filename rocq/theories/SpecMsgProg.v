(** SpecMsgProg.v: programs that work with whole messages and with the RRs and RRsets inside them. *)
From Verif Require Import Base ModelParse ModelRRset ModelToStr ModelHeap ModelHeap2 SpecHeap SpecSane.

(** A client with some wdns_message_t variables, zeroed at the start. *)
Inductive mop :=
| MParse (i : Z) (pkt : bytes)                    (* wdns_parse_message(&v[i], pkt, sizeof pkt) *)
| MPrint (i : Z)                                  (* wdns_print_message(fp, &v[i]) *)
| MPrintArray (i k : Z)                           (* wdns_print_rrset_array(fp, &v[i].sections[k], k) *)
| MPrintRR (i k j : Z)                            (* wdns_print_rr(fp, &v[i].sections[k].rrs[j], k) *)
| MPrintSet (i k j : Z)                           (* wdns_print_rrset(fp, &v[i].sections[k].rrsets[j], k) *)
| MSer (i k j : Z) (big : bool) (cap : Z)         (* wdns_serialize_rrset(&v[i].sections[k].rrsets[j], buf, NULL) with cap octets at buf *)
| MSort (i k j : Z)                               (* wdns_sort_rrset(&v[i].sections[k].rrsets[j]) *)
| MDown (i k j : Z)                               (* wdns_downcase_rrset(&v[i].sections[k].rrsets[j]) *)
| MClear (i : Z).                                 (* wdns_clear_message(&v[i]) *)

(** &v[i].sections[k].rrs[j] and &v[i].sections[k].rrsets[j]: the array is a block of the heap. *)
Definition rr_at (v : list hmsg) (i k j : Z) : hm hrr := x <-- elem v i ;;; l <-- load_rrs (ha_rrs (hget_sec x k)) ;;; elem l j.
Definition set_at (v : list hmsg) (i k j : Z) : hm hset := x <-- elem v i ;;; l <-- load_sets (ha_sets (hget_sec x k)) ;;; elem l j.
(** The program, with the list of what it printed and serialised. *)
Fixpoint run_msgs (fuel : nat) (ops : list mop) (v : list hmsg) : hm (list hmsg * list bytes) :=
  match ops with
  | [] => ret (v, [])
  | MParse i pkt :: ops => x <-- parse_message_h fuel pkt (zlen pkt) ;;; v <-- upd v i (snd x) ;;; run_msgs fuel ops v
  | MPrint i :: ops => x <-- elem v i ;;; o <-- print_h (message_to_str_h x) ;;; y <-- run_msgs fuel ops v ;;; ret (fst y, o :: snd y)
  | MPrintArray i k :: ops => x <-- elem v i ;;; o <-- print_h (array_to_str_h (hget_sec x k) k) ;;; y <-- run_msgs fuel ops v ;;; ret (fst y, o :: snd y)
  | MPrintRR i k j :: ops => r <-- rr_at v i k j ;;; o <-- print_h (rr_to_str_h r k) ;;; y <-- run_msgs fuel ops v ;;; ret (fst y, o :: snd y)
  | MPrintSet i k j :: ops => s <-- set_at v i k j ;;; o <-- print_h (rrset_to_str_h s k) ;;; y <-- run_msgs fuel ops v ;;; ret (fst y, o :: snd y)
  | MSer i k j big cap :: ops => s <-- set_at v i k j ;;; o <-- serialize_h big cap s ;;; y <-- run_msgs fuel ops v ;;; ret (fst y, o :: snd y)
  | MSort i k j :: ops => s <-- set_at v i k j ;;; sort_h s ;;;; run_msgs fuel ops v
  | MDown i k j :: ops => s <-- set_at v i k j ;;; _ <-- downcase_h s ;;; run_msgs fuel ops v
  | MClear i :: ops => x <-- elem v i ;;; x <-- clear_message_h x ;;; v <-- upd v i x ;;; run_msgs fuel ops v
  end.

(** The RRset behind [a] in section [k] replaced by [s]. *)
Definition with_set (M : message) (k : Z) (a : list rrset) (s : rrset) (b : list rrset) : message :=
  set_sec M k {| a_rrs := a_rrs (get_sec M k); a_rrsets := a ++ s :: b |}.
(** What each variable holds for the client and what the program writes, without any heap. The rules of the API: no parsing
    into a variable that holds a message; the other operations only on one that does, and on RRs and RRsets that are there;
    a large enough buffer for serialising; no record whose text or case folding is undefined (C98 says which are). *)
Inductive msgs_client (fuel : nat) : list mop -> list (option message) -> list (option message) -> list bytes -> Prop :=
| mc_nil : forall s, msgs_client fuel [] s s []
| mc_parse : forall pkt a b r M ops s' out, bytes_ok pkt -> parse_message fuel pkt (zlen pkt) = Ok (r, M) ->
    msgs_client fuel ops (a ++ (match r with res_success => Some M | _ => None end) :: b) s' out ->
    msgs_client fuel (MParse (zlen a) pkt :: ops) (a ++ None :: b) s' out
| mc_print : forall a b M o ops s' out, message_to_str M = Ok o -> msgs_client fuel ops (a ++ Some M :: b) s' out ->
    msgs_client fuel (MPrint (zlen a) :: ops) (a ++ Some M :: b) s' (o :: out)
| mc_print_array : forall a b M k o ops s' out, 0 <= k <= 3 -> rrset_array_to_str (get_sec M k) k = Ok o -> msgs_client fuel ops (a ++ Some M :: b) s' out ->
    msgs_client fuel (MPrintArray (zlen a) k :: ops) (a ++ Some M :: b) s' (o :: out)
| mc_print_rr : forall a b M k c r d o ops s' out, 0 <= k <= 3 -> a_rrs (get_sec M k) = c ++ r :: d -> rr_to_str r k = Ok o -> msgs_client fuel ops (a ++ Some M :: b) s' out ->
    msgs_client fuel (MPrintRR (zlen a) k (zlen c) :: ops) (a ++ Some M :: b) s' (o :: out)
| mc_print_set : forall a b M k c s d o ops s' out, 0 <= k <= 3 -> a_rrsets (get_sec M k) = c ++ s :: d -> rrset_to_str s k = Ok o -> msgs_client fuel ops (a ++ Some M :: b) s' out ->
    msgs_client fuel (MPrintSet (zlen a) k (zlen c) :: ops) (a ++ Some M :: b) s' (o :: out)
| mc_ser : forall a b M k c s d big cap o ops s' out, 0 <= k <= 3 -> a_rrsets (get_sec M k) = c ++ s :: d -> serialize_rrset big cap s = Ok o -> msgs_client fuel ops (a ++ Some M :: b) s' out ->
    msgs_client fuel (MSer (zlen a) k (zlen c) big cap :: ops) (a ++ Some M :: b) s' (o :: out)
| mc_sort : forall a b M k c s d ops s' out, 0 <= k <= 3 -> a_rrsets (get_sec M k) = c ++ s :: d ->
    msgs_client fuel ops (a ++ Some (with_set M k c (sort_rrset s) d) :: b) s' out ->
    msgs_client fuel (MSort (zlen a) k (zlen c) :: ops) (a ++ Some M :: b) s' out
| mc_down : forall a b M k c s d r s1 ops s' out, 0 <= k <= 3 -> a_rrsets (get_sec M k) = c ++ s :: d -> downcase_rrset s = Ok (r, s1) ->
    msgs_client fuel ops (a ++ Some (with_set M k c s1 d) :: b) s' out ->
    msgs_client fuel (MDown (zlen a) k (zlen c) :: ops) (a ++ Some M :: b) s' out
| mc_clear : forall a o b ops s' out, msgs_client fuel ops (a ++ None :: b) s' out -> msgs_client fuel (MClear (zlen a) :: ops) (a ++ o :: b) s' out.

(** A variable, and the blocks it owns: see own_slot. *)
Definition own_mvar (o : option message) (x : hmsg) (fp : list (ptr * cell)) : Prop := own_slot o x fp /\ forall M, o = Some M -> sane_msg M.
