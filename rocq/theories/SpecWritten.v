(** SpecWritten.v: the octets that reading rdata text may produce: well-formed rdata, except that labels may be longer than 63
    octets and that alpn lists and oversized parameters announce a wrong length. Independent of the C code. *)
From Coq Require Strings.String.
From Verif Require Import Base Lib SpecName SpecMessage SpecEncode Libc.

(** Names: labels of any positive length, 255 octets in all. *)
Definition loose_name (ls : lname) : Prop := Forall (fun l => l <> [] /\ bytes_ok l) ls /\ zlen (wire ls) <= 255.

(** An alpn list as it is written: the length octet of an id is its length modulo 256; the announced length counts every
    id, but not the length octet of a last id of length 0 (or 256, 512, ...). *)
Definition alpn_id (id : bytes) : bytes := zlen id mod 256 :: id.
Definition alpn_announced (ids : list bytes) : Z :=
  fold_right (fun id n => zlen id mod 256 + 1 + n) 0 ids - (if zlen (last ids []) mod 256 =? 0 then 1 else 0).

Inductive written_param : bytes -> Prop :=
| wp_value : forall k v, k <> 1 -> param_ok k v -> bytes_ok v -> written_param (u16 k ++ u16 (zlen v mod 65536) ++ v)
| wp_alpn : forall ids, ids <> [] -> Forall bytes_ok ids ->
    written_param (u16 1 ++ u16 (alpn_announced ids mod 65536) ++ concat (map alpn_id ids)).

(** As [wf_values], with these names and parameters. *)
Inductive written_values : list fmt -> list fval -> Prop :=
| wr_end : forall fs, written_values fs []
| wr_name : forall fs ls vs, loose_name ls -> written_values fs vs -> written_values (FName :: fs) (VName ls :: vs)
| wr_octets : forall f fs l vs, field_octets f l -> bytes_ok l -> l <> [] -> (to_end f = true -> vs = []) ->
    written_values fs vs -> written_values (f :: fs) (VOctets l :: vs)
| wr_params : forall fs ps, ps <> [] -> Forall written_param ps -> written_values (FParams :: fs) [VOctets (concat ps)].

(** No part of the text is the text of a name with a label of more than 63 octets. *)
Definition no_long_label (s : bytes) : Prop := forall a t b ls, s = a ++ t ++ b -> name_text t ls -> Forall (fun l => zlen l <= 63) ls.
(** The text has no alpn parameter, by that name or by a numeric key. *)
Definition no_alpn (s : bytes) : Prop := (forall a b, s <> a ++ lit "alpn=" ++ b) /\ (forall a b, s <> a ++ lit "key" ++ b).
