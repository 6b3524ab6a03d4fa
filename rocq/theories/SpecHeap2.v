(** SpecHeap2.v: programs that work with RRsets. *)
From Verif Require Import Base ModelParse ModelRRset ModelToStr ModelHeap ModelHeap2 SpecHeap SpecRRset SpecSane.

(** A client with some wdns_rrset_t variables, zeroed at the start. *)
Inductive sop :=
| SDeser (i : Z) (big : bool) (buf : bytes)      (* wdns_deserialize_rrset(&v[i], buf, sizeof buf) *)
| SSort (i : Z)                                  (* wdns_sort_rrset(&v[i]) *)
| SDown (i : Z)                                  (* wdns_downcase_rrset(&v[i]) *)
| SSer (i : Z) (big : bool) (cap : Z)            (* wdns_serialize_rrset(&v[i], buf, NULL) with cap octets at buf *)
| SPrint (i : Z) (sec : Z)                       (* wdns_print_rrset(fp, &v[i], sec) *)
| SClear (i : Z).                                (* wdns_clear_rrset(&v[i]) *)

Definition hset_zero := mkHset 0 0 0 0 0 0 0.
(** A call that fails leaves a cleared structure and the client goes on. *)
Definition or_cleared (e : hm hset) : hm hset := fun h => match e h with HErr _ h => HOk hset_zero h | x => x end.

(** The program, with the list of what it serialised and printed. *)
Fixpoint run_sets (ops : list sop) (v : list hset) : hm (list hset * list bytes) :=
  match ops with
  | [] => ret (v, [])
  | SDeser i big buf :: ops => x <-- or_cleared (deserialize_h big buf (zlen buf)) ;;; v <-- upd v i x ;;; run_sets ops v
  | SSort i :: ops => x <-- elem v i ;;; sort_h x ;;;; run_sets ops v
  | SDown i :: ops => x <-- elem v i ;;; _ <-- downcase_h x ;;; run_sets ops v
  | SSer i big cap :: ops => x <-- elem v i ;;; o <-- serialize_h big cap x ;;; y <-- run_sets ops v ;;; ret (fst y, o :: snd y)
  | SPrint i sec :: ops => x <-- elem v i ;;; o <-- print_h (rrset_to_str_h x sec) ;;; y <-- run_sets ops v ;;; ret (fst y, o :: snd y)
  | SClear i :: ops => x <-- elem v i ;;; x <-- clear_rrset_h x ;;; v <-- upd v i x ;;; run_sets ops v
  end.

(** What each variable holds for the client and what the program writes, without any heap. The rules of the API: no
    deserialisation into a variable that holds an RRset; the other operations only on one that does; a large enough buffer
    for serialising; nothing that the functions without heap forbid (see PropRRset.v and PropSafe.v for when that is). *)
Inductive sets_client : list sop -> list (option rrset) -> list (option rrset) -> list bytes -> Prop :=
| sc_nil : forall s, sets_client [] s s []
| sc_deser : forall big buf a b S x ops s' out, bytes_ok buf -> deserialize_rrset big buf (zlen buf) = Ok (res_success, S) ->
    holds S x -> sets_client ops (a ++ Some x :: b) s' out -> sets_client (SDeser (zlen a) big buf :: ops) (a ++ None :: b) s' out
| sc_deser_fail : forall big buf a b r S ops s' out, bytes_ok buf -> deserialize_rrset big buf (zlen buf) = Ok (r, S) -> r <> res_success ->
    sets_client ops (a ++ None :: b) s' out -> sets_client (SDeser (zlen a) big buf :: ops) (a ++ None :: b) s' out
| sc_sort : forall a b x ops s' out, sets_client ops (a ++ Some (sort_rrset x) :: b) s' out -> sets_client (SSort (zlen a) :: ops) (a ++ Some x :: b) s' out
| sc_down : forall a b x r y ops s' out, downcase_rrset x = Ok (r, y) -> sets_client ops (a ++ Some y :: b) s' out -> sets_client (SDown (zlen a) :: ops) (a ++ Some x :: b) s' out
| sc_ser : forall a b x big cap o ops s' out, serialize_rrset big cap x = Ok o -> sets_client ops (a ++ Some x :: b) s' out ->
    sets_client (SSer (zlen a) big cap :: ops) (a ++ Some x :: b) s' (o :: out)
| sc_print : forall a b x sec o ops s' out, rrset_to_str x sec = Ok o -> sets_client ops (a ++ Some x :: b) s' out ->
    sets_client (SPrint (zlen a) sec :: ops) (a ++ Some x :: b) s' (o :: out)
| sc_clear : forall a b x ops s' out, sets_client ops (a ++ None :: b) s' out -> sets_client (SClear (zlen a) :: ops) (a ++ x :: b) s' out.

Definition own_var (o : option rrset) (x : hset) (fp : list (ptr * cell)) : Prop :=
  match o with
  | Some s => sane_set s /\ own_set s x fp
  | None => fp = [] /\ hs_name x = 0 /\ hs_rdatas x = 0 /\ hs_n x = 0
  end.
