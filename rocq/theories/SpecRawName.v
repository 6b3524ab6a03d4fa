(** SpecRawName.v: arbitrary octets taken as a name (a wdns_name_t filled in by hand, or by wdns_deserialize_rrset, which
    does not look at the name it copies); independently of the C code. *)
From Verif Require Import Base Lib SpecName.

(** Labels as any length octet 1..255 delimits them. *)
Definition raw_label (l : label) : Prop := 1 <= zlen l <= 255 /\ bytes_ok l.
Definition raw_labels (ls : lname) : Prop := Forall raw_label ls.

(** Every octet string is labels followed by: a zero octet and anything ("ended"); nothing ("open"); a length octet and
    fewer octets than it announces ("cut"). *)
Definition ended (src : bytes) (ls : lname) (r : bytes) : Prop := raw_labels ls /\ src = wire ls ++ r.
Definition open (src : bytes) (ls : lname) : Prop := raw_labels ls /\ src = prewire ls.
Definition cut (src : bytes) (ls : lname) (c : Z) (r : bytes) : Prop := raw_labels ls /\ 1 <= c <= 255 /\ zlen r < c /\ src = prewire ls ++ c :: r.

(** Counting the labels of the octets [src], behind which [after] can be read: labels have 1..63 octets. *)
Definition labelled (src after : bytes) (ls : lname) : Prop :=
  valid_labels ls /\ ((exists r, src = wire ls ++ r) \/ (src = prewire ls /\ exists r, after = 0 :: r)).
Definition bad_length (src after : bytes) : Prop :=
  exists ls c r, valid_labels ls /\ 64 <= c /\ (src = prewire ls ++ c :: r \/ (src = prewire ls /\ after = c :: r)).
Definition over_end (src after : bytes) : Prop :=
  exists ls c r, valid_labels ls /\ 1 <= c <= 63 /\ ((src = prewire ls ++ c :: r /\ zlen r < c) \/ (src = prewire ls /\ after = c :: r)).
Definition unended (src after : bytes) : Prop := exists ls, valid_labels ls /\ src = prewire ls /\ after = [].
