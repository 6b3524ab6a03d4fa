(** SpecPrint.v: the text printed for rdata whatever its octets are, well-formed or not: how far it is printed, and which
    error is appended. Nothing here mentions the C code. The grammar of well-formed fields is that of SpecText.v. *)
From Coq Require Strings.String.
From Verif Require Import Base Lib SpecName SpecMessage SpecFormat SpecTables SpecText SpecMsgText Libc.

(** The errors: octets are missing (or an A6 prefix is longer than 128, or a SvcParam has the reserved key); a label is not a
    label; a name is longer than 255 octets; the value of a SvcParam or of an EDNS option does not have its format. *)
Definition err_short : bytes := lit " ### PARSE ERROR ###".
Definition err_label : bytes := lit " ### PARSE ERROR #3 ###".
Definition err_long : bytes := lit " ### PARSE ERROR #8 ###".
Definition err_value : bytes := lit " ### PARSE ERROR #12 ###".

(** After a field: go on with the octets left, or stop with an error. *)
Inductive next := Go (rest : bytes) | Stop (e : bytes).

(** Texts each followed by [c]. *)
Definition each (c : Z) (ts : list bytes) : bytes := concat (map (fun t => t ++ [c]) ts).

(** No complete item of the kind [P] at the head of [l]. *)
Definition no_head (P : bytes -> Prop) (l : bytes) : Prop := forall o r, l = o ++ r -> ~ P o.

(** ** Type bit maps, with windows of any length. A bit map longer than 32 octets runs into the next window; its bits are
    then or-ed with the window number. *)
Definition window_numbers (w : Z * bytes) : list Z := map (fun x => Z.lor (256 * fst w) x) (map_types 0 (snd w)).
Definition bitmap_numbers (ws : list (Z * bytes)) : list Z := concat (map window_numbers ws).

(** ** SvcParams *)

(** The reserved key in a list of mandatory keys. *)
Definition any_key_text (k : Z) (s : bytes) : Prop := key_text k s \/ (k = 65535 /\ s = lit "invalid key").

(** The elements of a list: separated by commas and followed by a blank; nothing at all for the empty list. *)
Definition list_text (ts : list bytes) : bytes := match ts with [] => [] | _ => join_by 44 ts ++ [32] end.

(** [value_shown k v t ok]: [t] is printed for the value [v] of key [k]; [ok = false]: up to the place where it is wrong. *)
Inductive value_shown : Z -> bytes -> bytes -> bool -> Prop :=
| vs_mandatory : forall ks ts, Forall2 any_key_text ks ts -> value_shown 0 (concat (map u16 ks)) (list_text ts) true
| vs_mandatory_odd : forall ks ts b, Forall2 any_key_text ks ts -> value_shown 0 (concat (map u16 ks) ++ [b]) (each 44 ts) false
| vs_alpn_none : value_shown 1 [] (lit """ ") true
| vs_alpn : forall ids, ids <> [] -> Forall (fun s => zlen s <= 255) ids ->
    value_shown 1 (concat (map char_string ids)) (alpn_value_text ids ++ [32]) true
| vs_alpn_cut : forall ids l, Forall (fun s => zlen s <= 255) ids -> l <> [] -> no_head (field_octets FString) l ->
    value_shown 1 (concat (map char_string ids) ++ l)
      (lit """" ++ each 44 (map (fun i => concat (map quote_octet (concat (map list_octet i)))) ids)) false
| vs_flag : value_shown 2 [] [32] true
| vs_flag_value : forall v, v <> [] -> value_shown 2 v [] false
| vs_port : forall p d, 0 <= p < 65536 -> decimal p d -> value_shown 3 (u16 p) (d ++ [32]) true
| vs_port_bad : forall v, zlen v <> 2 -> value_shown 3 v [] false
| vs_ipv4hint : forall az ts, Forall2 ipv4_text az ts -> value_shown 4 (concat az) (list_text ts) true
| vs_ipv4hint_cut : forall az ts l, Forall2 ipv4_text az ts -> 0 < zlen l < 4 -> value_shown 4 (concat az ++ l) (each 44 ts) false
| vs_ech : forall l, value_shown 5 l (base64 l ++ [32]) true
| vs_ipv6hint : forall az ts, Forall (fun a => zlen a = 16) az -> Forall2 ipv6_text az ts -> value_shown 6 (concat az) (list_text ts) true
| vs_ipv6hint_cut : forall az ts l, Forall (fun a => zlen a = 16) az -> Forall2 ipv6_text az ts -> 0 < zlen l < 16 ->
    value_shown 6 (concat az ++ l) (each 44 ts) false
| vs_other : forall k l, 7 <= k < 65535 -> value_shown k l (quoted l ++ [32]) true.

(** Key name, and "=" unless the key is no-default-alpn. *)
Definition key_head (k : Z) (s : bytes) : Prop := exists t, key_text k t /\ s = t ++ (if k =? 2 then [] else [61]).

(** SvcParams up to the end of the rdata, or up to the first that is not complete or not well-formed. *)
Inductive params_shown : bytes -> bytes -> next -> Prop :=
| pp_end : params_shown [] [] (Go [])
| pp_param : forall k v h t l s n, 0 <= k < 65535 -> zlen v < 65536 -> key_head k h -> value_shown k v t true -> params_shown l s n ->
    params_shown (param (k, v) ++ l) (h ++ t ++ s) n
| pp_no_key : forall b, params_shown [b] [] (Stop err_short)
| pp_reserved : forall l, params_shown (u16 65535 ++ l) [] (Stop err_short)
| pp_no_length : forall k l h, 0 <= k < 65535 -> zlen l < 2 -> key_head k h -> params_shown (u16 k ++ l) h (Stop err_short)
| pp_no_value : forall k n l h, 0 <= k < 65535 -> 0 <= n < 65536 -> zlen l < n -> key_head k h ->
    params_shown (u16 k ++ u16 n ++ l) h (Stop err_short)
| pp_bad : forall k v h t l, 0 <= k < 65535 -> zlen v < 65536 -> key_head k h -> value_shown k v t false ->
    params_shown (param (k, v) ++ l) (h ++ t) (Stop err_value).

(** ** Fields. [shows f p l t n]: for a field of format [f], presentation [p], at the head of the remaining octets [l] (not
    empty), the text [t] is printed. *)
Inductive shows : fmt -> pres -> bytes -> bytes -> next -> Prop :=
| sh_name : forall ls r, valid_name ls -> shows FName PName (wire ls ++ r) (pres_name ls ++ [32]) (Go r)
| sh_long_name : forall ls r, valid_labels ls -> 255 < zlen (wire ls) -> shows FName PName (wire ls ++ r) [] (Stop err_long)
| sh_long_cut : forall ls, valid_labels ls -> 255 < zlen (wire ls) -> shows FName PName (prewire ls) [] (Stop err_long)
    (* labels of 255 or more octets, no root octet *)
| sh_bad_label : forall ls c r, valid_labels ls -> 64 <= c \/ (1 <= c /\ zlen r < c) ->
    shows FName PName (prewire ls ++ c :: r) [] (Stop err_label)
    (* after some labels a length octet that is 64 or more, or announces more octets than there are *)
| sh_value : forall f p o r ts, to_end f = false -> p <> PEui -> field_octets f o -> field_tokens p (VOctets o) ts ->
    shows f p (o ++ r) (each 32 ts) (Go r)
| sh_eui : forall f o r t, field_octets f o -> to_end f = false -> field_tokens PEui (VOctets o) [t] -> shows f PEui (o ++ r) t (Go r)
| sh_missing : forall f p l, to_end f = false -> f <> FName -> no_head (field_octets f) l -> shows f p l [] (Stop err_short)
| sh_hex : forall l s, hex_text true l s -> shows FRest PHex l s (Go [])
| sh_base64 : forall l, shows FRest PBase64 l (base64 l) (Go [])
| sh_quoted : forall l, shows FRest PQuoted l (quoted l ++ [32]) (Go [])
| sh_strings : forall ss, Forall (fun s => zlen s <= 255) ss ->
    shows FStrings PStrings (concat (map char_string ss)) (each 32 (map quoted ss)) (Go [])
| sh_strings_cut : forall ss l, Forall (fun s => zlen s <= 255) ss -> l <> [] -> no_head (field_octets FString) l ->
    shows FStrings PStrings (concat (map char_string ss) ++ l) (each 32 (map quoted ss)) (Stop err_short)
| sh_no_window : forall b, shows FTypes PTypes [b] [] (Stop err_short)
| sh_types : forall ws ts r, ws <> [] -> zlen r <= 1 -> Forall (fun w => zlen (snd w) <= 255) ws -> Forall2 type_text (bitmap_numbers ws) ts ->
    shows FTypes PTypes (concat (map window ws) ++ r) (each 32 ts) (Go r)
    (* one surplus octet is not noticed *)
| sh_types_cut : forall ws ts w n l, Forall (fun w => zlen (snd w) <= 255) ws -> Forall2 type_text (bitmap_numbers ws) ts -> zlen l < n <= 255 ->
    shows FTypes PTypes (concat (map window ws) ++ w :: n :: l) (each 32 ts) (Stop err_short)
| sh_params : forall l s n, params_shown l s n -> shows FParams PParams l s n.

(** ** EDNS options: separated by newlines. *)
Definition option_head (code : Z) (s : bytes) : Prop :=
  (code = 8 /\ s = lit "CLIENT-SUBNET:") \/ (code = 15 /\ s = lit "EDE:") \/
  (code <> 8 /\ code <> 15 /\ exists d, decimal code d /\ s = lit "OPT=" ++ d ++ lit ":").
Inductive options_shown : bytes -> bytes -> next -> Prop :=
| oo_end : options_shown [] [] (Go [])
| oo_last : forall o s, zlen (snd o) < 65536 -> option_text o s -> options_shown (param o) s (Go [])
| oo_option : forall o s l t n, zlen (snd o) < 65536 -> option_text o s -> l <> [] -> options_shown l t n ->
    options_shown (param o ++ l) (s ++ [10] ++ t) n
| oo_no_code : forall b, options_shown [b] [] (Stop err_short)
| oo_no_length : forall c l h, 0 <= c < 65536 -> zlen l < 2 -> option_head c h -> options_shown (u16 c ++ l) h (Stop err_short)
| oo_no_data : forall c n l h, 0 <= c < 65536 -> 0 <= n < 65536 -> zlen l < n -> option_head c h -> options_shown (u16 c ++ u16 n ++ l) h (Stop err_short)
| oo_bad : forall c v h l, 0 <= c < 65536 -> zlen v < 65536 -> option_head c h -> (forall s, ~ option_text (c, v) s) ->
    options_shown (param (c, v) ++ l) (h ++ [32]) (Stop err_value).

(** ** Rdata: the fields one after the other, until there are no more fields (surplus octets are ignored), no more octets
    (missing fields are not noticed), or an error. *)
Inductive fields_shown : list (fmt * pres) -> bytes -> bytes -> option bytes -> Prop :=
| fl_done : forall l, fields_shown [] l [] None
| fl_end : forall fs, fields_shown fs [] [] None
| fl_field : forall f p fs l t r s e, l <> [] -> shows f p l t (Go r) -> fields_shown fs r s e -> fields_shown ((f, p) :: fs) l (t ++ s) e
| fl_stop : forall f p fs l t e, l <> [] -> shows f p l t (Stop e) -> fields_shown ((f, p) :: fs) l t (Some e).

(** One blank at the end is dropped. *)
Definition unblank (s t : bytes) : Prop := s = t ++ [32] \/ (s = t /\ last s 0 <> 32).

(** The whole text: generic for types without a format, nothing for a type that has a format in another class only. *)
Definition rdata_shown (t c : Z) (l s : bytes) : Prop :=
  if t =? 41 then exists x n, options_shown l x n /\ match n with Go _ => s = x | Stop e => s = x ++ e end
  else match find (fun e => fst e =? t) rr_formats with
  | None => generic_text l s
  | Some _ =>
    if has_fields t c then exists x e, fields_shown (combine (format_of t c) (presentation_of t)) l x e /\
      match e with None => unblank x s | Some e => s = x ++ e end
    else s = []
  end.
