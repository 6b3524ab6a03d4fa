(** SpecDeliver.v: what can be found in the rdata of an accepted packet: field values as in SpecEncode.v, but any octets as
    SvcParams (the parser's check of these can be evaded, see SpecLoose.v); rdata that stops inside a name. *)
From Verif Require Import Base SpecName SpecMessage SpecEncode SpecText ModelParse.

Inductive loose_values : list fmt -> list fval -> Prop :=
| lv_end : forall fs, loose_values fs []
| lv_name : forall fs ls vs, valid_name ls -> loose_values fs vs -> loose_values (FName :: fs) (VName ls :: vs)
| lv_octets : forall f fs l vs, f <> FParams -> field_octets f l -> bytes_ok l -> l <> [] -> (to_end f = true -> vs = []) ->
    loose_values fs vs -> loose_values (f :: fs) (VOctets l :: vs)
| lv_params : forall fs l, bytes_ok l -> l <> [] -> loose_values (FParams :: fs) [VOctets l].

(** The rdata of an RR, or one of the rdata of an RRset, stops inside a name. *)
Definition cut_rr (r : rr) : Prop := exists d, rr_rdata r = Some d /\ ends_in_name (format_of (rr_type r) (rr_class r)) d.
Definition cut_set (x : rrset) : Prop := exists d, In d (rs_rdatas x) /\ ends_in_name (format_of (rs_type x) (rs_class x)) d.
