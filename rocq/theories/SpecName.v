(** SpecName.v: what DNS names are, independently of the C code (RFC 1035 sections 2.3.4, 3.1, 4.1.4, 5.1). *)
From Verif Require Import Base Lib.

(** A name is a list of labels; the root is the empty list. *)
Definition label := bytes.
Definition lname := list label.

Definition valid_label (l : label) : Prop := 1 <= zlen l <= 63 /\ bytes_ok l.

(** Length-prefixed labels without and with the terminating root octet. *)
Definition prewire (ls : lname) : bytes := concat (map (fun l => zlen l :: l) ls).
Definition wire (ls : lname) : bytes := prewire ls ++ [0].

Definition valid_labels (ls : lname) : Prop := Forall valid_label ls.
Definition valid_name (ls : lname) : Prop := valid_labels ls /\ zlen (wire ls) <= 255.

(** [octets_at m i l] (Lib.v): the octets [l] are found in [m] at offset [i]. *)

(** Offset named by a compression pointer. *)
Definition ptr_target (hi lo : Z) : Z := (hi - 192) * 256 + lo.

(** The octets of message [m] at offset [i] denote the name [ls]; pointers must point strictly before themselves. *)
Inductive denotes (m : bytes) : Z -> lname -> Prop :=
| den_root : forall i, octets_at m i [0] -> denotes m i []
| den_label : forall i l ls, valid_label l -> octets_at m i (zlen l :: l) ->
    denotes m (i + 1 + zlen l) ls -> denotes m i (l :: ls)
| den_ptr : forall i hi lo ls, octets_at m i [hi; lo] -> 192 <= hi < 256 -> ptr_target hi lo < i ->
    denotes m (ptr_target hi lo) ls -> denotes m i ls.

(** Number of octets the encoding at [i] occupies in place: up to the root octet or the first pointer. *)
Inductive extent (m : bytes) : Z -> Z -> Prop :=
| ext_root : forall i, octets_at m i [0] -> extent m i 1
| ext_ptr : forall i hi lo, octets_at m i [hi; lo] -> 192 <= hi < 256 -> extent m i 2
| ext_label : forall i l e, valid_label l -> octets_at m i (zlen l :: l) ->
    extent m (i + 1 + zlen l) e -> extent m i (1 + zlen l + e).

(** [reaches m eop i ls j]: decoding from [i], after the labels [ls] (all ending at or before [eop]) and any number of
    admissible pointers (second octet at most at offset [eop]), the decoder stands at offset [j]. *)
Inductive reaches (m : bytes) (eop : Z) : Z -> lname -> Z -> Prop :=
| rch_here : forall i, reaches m eop i [] i
| rch_label : forall i l ls j, valid_label l -> octets_at m i (zlen l :: l) -> i + 1 + zlen l <= eop ->
    reaches m eop (i + 1 + zlen l) ls j -> reaches m eop i (l :: ls) j
| rch_ptr : forall i hi lo ls j, octets_at m i [hi; lo] -> 192 <= hi < 256 -> i + 1 <= eop ->
    ptr_target hi lo < i -> reaches m eop (ptr_target hi lo) ls j -> reaches m eop i ls j.

(** ** Presentation format *)

(** One octet: '.' and '\' are escaped with a backslash, other visible ASCII is literal, the rest is \DDD. *)
Definition pres_octet (b : Z) : bytes :=
  if (b =? 46) || (b =? 92) then [92; b]
  else if (33 <=? b) && (b <=? 126) then [b]
  else [92; 48 + b / 100; 48 + b / 10 mod 10; 48 + b mod 10].

Definition pres_label (l : label) : bytes := concat (map pres_octet l).
Definition pres_name (ls : lname) : bytes :=
  match ls with [] => [46] | _ => concat (map (fun l => pres_label l ++ [46]) ls) end.

(** The grammar accepted as presentation form. [ptext t l]: the text [t] writes the octets [l]. *)
Definition digit (c : Z) : Prop := 48 <= c <= 57.
Inductive pchar : bytes -> Z -> Prop :=
| pc_plain : forall c, c <> 92 -> c <> 46 -> pchar [c] c
| pc_quote : forall c, ~ digit c -> pchar [92; c] c
| pc_ddd : forall a b c, digit a -> digit b -> digit c -> (a - 48) * 100 + (b - 48) * 10 + (c - 48) <= 255 ->
    pchar [92; a; b; c] ((a - 48) * 100 + (b - 48) * 10 + (c - 48)).

Inductive ptext : bytes -> label -> Prop :=
| pt_nil : ptext [] []
| pt_cons : forall t c t' l, pchar t c -> ptext t' l -> ptext (t ++ t') (c :: l).

(** Non-empty labels separated by dots, optional final dot; [] and "." are the root. *)
Inductive dotted : bytes -> lname -> Prop :=
| dt_last : forall t l, ptext t l -> l <> [] -> dotted t [l]
| dt_last_dot : forall t l, ptext t l -> l <> [] -> dotted (t ++ [46]) [l]
| dt_more : forall t l s ls, ptext t l -> l <> [] -> dotted s ls -> dotted (t ++ 46 :: s) (l :: ls).

Inductive name_text : bytes -> lname -> Prop :=
| nt_empty : name_text [] []
| nt_dot : name_text [46] []
| nt_labels : forall s ls, dotted s ls -> name_text s ls.

(** A C string: octets other than NUL. *)
Definition c_string (s : bytes) : Prop := Forall (fun c => 1 <= c < 256) s.

(** The last character is a backslash that nothing follows (every backslash takes the next character with it). *)
Fixpoint dangling (s : bytes) : bool :=
  match s with
  | [] => false
  | c :: r => if c =? 92 then match r with [] => true | _ :: r' => dangling r' end else dangling r
  end.

(** ** Label-sequence operations *)
Definition lower_label (l : label) : label := map (fun c => if (65 <=? c) && (c <=? 90) then c + 32 else c) l.
Definition lower_name (ls : lname) : lname := map lower_label ls.

Definition proper_suffix {A} (s t : list A) : Prop := exists p, p <> [] /\ t = p ++ s.
