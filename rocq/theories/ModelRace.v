(** ModelRace.v: concurrent calls of wdns_str_to_rdata (rdata_to_str.c:34-46, str_to_rdata_ubuf.c:350-1139).

    The only state such calls share is the table base32_map of libmy/b32_decode.c:102, which the first call of
    base32_decode fills in (lines 124-132). [ModelFormat.base32_map] is the table's intended contents; here the table is an
    array of 256 cells, zero at program start, and every access to it is one step of a thread.
    Simplification: accesses to single octets are atomic and sequentially consistent (C11 makes the unsynchronised
    accesses undefined behaviour; the theorems show what goes wrong even without that). *)
From Verif Require Import Base ModelName ModelDescr Libc ModelFormat ModelTables ModelRRset ModelFromStr.

(** A call as a sequence of local computations and calls base32_decode(buf, size, data, len). *)
Inductive prog : Type :=
| Ret (o : outcome bytes)
| Decode (size : Z) (data : bytes) (k : outcome (option bytes) -> prog).

Fixpoint pmap (f : outcome bytes -> outcome bytes) (p : prog) : prog :=
  match p with Ret o => Ret (f o) | Decode size data k => Decode size data (fun o => pmap f (k o)) end.

(** [o] was appended before what comes. *)
Definition after (o : bytes) (r : outcome bytes) : outcome bytes := o' <- r ;; Ok (o ++ o').

(** str_to_rdata_ubuf.c:427-1133, the loop over the fields; rdf_hash (lines 629-666) calls base32_decode, the other fields
    ([ModelFromStr.parse_text_field]) use no shared state. *)
Fixpoint fields_prog (ts : list rdf) (s : option bytes) : prog :=
  match ts with
  | [] => Ret (Ok [])
  | t :: ts =>
    match s with
    | None => Ret (Ok [])
    | Some s =>
      match skip_space s with
      | [] => Ret (Ok [])
      | s =>
        let go (r : outcome (bytes * option bytes)) : prog :=
          match r with
          | Ok (o, e) => pmap (after o) (fields_prog ts e)
          | Err r => Ret (Err r) | UB f => Ret (UB f) | NoFuel => Ret NoFuel
          end in
        match t with
        | rdf_hash =>
          let '(t, e) := token s in
          if zlen t =? 1 then go (s <- skip s 1 ;; Ok ([0], Some s))
          else Decode (zlen t) t (fun o => go (
            o <- o ;;
            match o with
            | None => Err res_parse_error
            | Some l => if negb (zlen l mod 256 =? zlen l) then Err res_parse_error else Ok (zlen l :: l, Some e)
            end))
        | _ => go (parse_text_field t s)
        end
      end
    end
  end.

(** str_to_rdata_ubuf.c:350-1139. *)
Definition str_to_rdata_prog (s : bytes) (rrtype rrclass : Z) : prog :=
  match lookup_descr rrtype with
  | None => Ret (str_to_generic_rdata s)
  | Some d =>
    if negb ((d_class d =? class_un) || (d_class d =? rrclass)) then Ret (Ok [])
    else fields_prog (d_types d) (Some s)
  end.

(** Where a thread is: in local code; in the loop of b32_decode.c:125-131 at index i; in the loop of lines 138-204. *)
Inductive pc : Type :=
| PRun (p : prog)
| PInit (i : Z) (size : Z) (data : bytes) (k : outcome (option bytes) -> prog)
| PDec (data : bytes) (s : list Z) (pad : bool) (dst : bytes) (size : Z) (k : outcome (option bytes) -> prog).

(** b32_decode.c:138-204, one turn with the character [c], [v] being what base32_map[c] held: the return value, or the
    state afterwards. [last]: i == len. *)
Definition dec_turn (v c : Z) (last : bool) (size : Z) (s : list Z) (pad : bool) (dst : bytes)
  : outcome (option bytes) + (list Z * bool * bytes) :=
  let pad' := pad || (c =? 61) in
  if negb (c =? 61) && (v =? 255) then inl (Ok None)
  else
  let s := if c =? 61 then s else s ++ [v] in
  if zlen s >? 8 then inl (UB OobWrite) else
  let flush := (zlen s =? 8) || pad' || last in
  let dst := if flush then dst ++ firstn (Z.to_nat (size - zlen dst)) (b32_octets s) else dst in
  let s := if flush then [] else s in
  if zlen dst =? size then inl (Ok (Some dst)) else inr (s, pad', dst).

Definition ended (l : bytes) : bool := match l with [] => true | _ => false end.

(** One step of a thread; [m] is base32_map. *)
Definition tstep (m : bytes) (t : pc) : bytes * pc :=
  match t with
  | PRun (Ret o) => (m, t)
  | PRun (Decode size data k) => (* line 124 *)
    (m, if nth 0 m 0 =? 0 then PInit 0 size data k else PDec data [] false [] size k)
  | PInit i size data k => (* lines 125-131 *)
    if i <? 256 then (firstn (Z.to_nat i) m ++ [base32_map i] ++ skipn (Z.to_nat (i + 1)) m, PInit (i + 1) size data k)
    else (m, PDec data [] false [] size k)
  | PDec [] s pad dst size k => (m, PRun (k (Ok (Some dst))))
  | PDec (c :: r) s pad dst size k => (* line 147 reads base32_map[c] unless c is '=' *)
    match dec_turn (nth (Z.to_nat c) m 0) c (ended r) size s pad dst with
    | inl o => (m, PRun (k o))
    | inr (s, pad, dst) => (m, PDec r s pad dst size k)
    end
  end.

(** The process: the table and its threads; [schedule] names the thread that takes each step. *)
Record proc : Type := mkProc { p_map : bytes; p_threads : list pc }.
Definition step (p : proc) (i : nat) : proc :=
  match nth_error (p_threads p) i with
  | None => p
  | Some t => let '(m, t') := tstep (p_map p) t in
      mkProc m (firstn i (p_threads p) ++ t' :: skipn (S i) (p_threads p))
  end.
Definition exec (p : proc) (schedule : list nat) : proc := fold_left step schedule p.

(** Program start: no call of base32_decode was made yet; one thread per call (text, type, class). *)
Definition cold : bytes := repeat 0 256.
Definition spawn (c : bytes * Z * Z) : pc := let '(s, ty, cl) := c in PRun (str_to_rdata_prog s ty cl).
Definition start (m : bytes) (calls : list (bytes * Z * Z)) : proc := mkProc m (map spawn calls).

(** The call of thread i returned [r]. *)
Definition returned (p : proc) (i : nat) (r : outcome bytes) : Prop := nth_error (p_threads p) i = Some (PRun (Ret r)).
