(** SpecRace.v: concurrent calls of wdns_str_to_rdata: what is shared and when it is unsafe. *)
From Verif Require Import Base ModelFormat ModelRace.

(** Every character's entry is what base32_decode needs: its digit value, or 255. *)
Definition complete (m : bytes) : Prop := length m = 256%nat /\ forall c, is_byte c -> nth (Z.to_nat c) m 0 = base32_map c.

(** A thread is about to look whether the table was set up. *)
Definition checking (t : pc) : Prop := match t with PRun (Decode _ _ _) => True | _ => False end.

(** The schedule never lets a thread look at the table while another one has filled in only part of it: at each such
    moment the first entry is still zero or the table is complete. *)
Fixpoint quiet (p : proc) (schedule : list nat) : Prop :=
  match schedule with
  | [] => True
  | i :: r =>
    (forall t, nth_error (p_threads p) i = Some t -> checking t -> nth 0 (p_map p) 0 = 0 \/ complete (p_map p)) /\
    quiet (step p i) r
  end.

(** The calls are made with C strings. *)
Definition calls_ok (calls : list (bytes * Z * Z)) : Prop := Forall (fun c => bytes_ok (fst (fst c))) calls.
