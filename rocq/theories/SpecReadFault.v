(** SpecReadFault.v: the texts on which reading rdata is undefined behaviour, and which: [OobRead], octets behind the text or
    behind the base64 table are read, or [Uninit], a variable that was never set is used. The grammar of SpecRead.v
    describes the text up to the place where it happens. Nothing here mentions the C code. *)
From Verif Require Import Base Lib SpecName SpecStrName SpecMessage SpecFormat SpecText SpecRead Libc ModelTables.

(** SvcParams, read up to an "ech" value with a '{' in it (unescaped; the value ends at a blank or NUL and has at most 255
    characters). *)
Inductive params_break : bytes -> Prop :=
| pb_ech : forall k s v e u t ts, Forall (fun c => c <> 61 /\ c <> 32) k -> str_to_svckey k = 5 -> string_read s v e -> up_to_nul v u ->
    tokens 32 u (t :: ts) -> zlen t <= 255 -> In 123 t -> params_break (k ++ 61 :: s)
| pb_blank : forall s, params_break s -> params_break (32 :: s)
| pb_flag : forall k e, Forall (fun c => c <> 61 /\ c <> 32) k -> (e = [] \/ exists r, e = 32 :: r) -> str_to_svckey k = 2 ->
    params_break e -> params_break (k ++ e)
| pb_value : forall k s v w n e, Forall (fun c => c <> 61 /\ c <> 32) k -> str_to_svckey k <> 65535 -> string_read s v e ->
    value_reads (str_to_svckey k) v w n -> params_break e -> params_break (k ++ 61 :: s).

(** [field_breaks p s w]: a field read at the head of [s] (not at white space). *)
Inductive field_breaks : pres -> bytes -> fault -> Prop :=
| fb_name : forall s t e, word s t e -> cut_escape same t -> field_breaks PName s OobRead
    (* a name whose last character is a lone backslash *)
| fb_hex : forall k s l e, hex_columns k s l e -> Forall white e -> 2 <= zlen e -> field_breaks PHex s Uninit
    (* hexadecimal text followed by two or more characters of white space (an odd number of them is found out too late) *)
| fb_base64 : forall s, In 123 s -> field_breaks PBase64 s OobRead
| fb_salt : forall s t e j l e', word s t e -> t <> [45] -> zlen t <= 510 -> Z.Even (zlen t) -> hex_columns j s l e' -> 2 * Z.of_nat j < zlen t ->
    Forall white e' -> field_breaks PSalt s Uninit
    (* a salt that contains only white space (vertical tabs or form feeds) from some even column on *)
| fb_params : forall s, params_break s -> field_breaks PParams s OobRead.

(** The fields are read up to one at which [B] holds. *)
Inductive fields_upto (B : pres -> bytes -> Prop) : list (fmt * pres) -> bytes -> Prop :=
| fs_here : forall f p fs w c s, Forall white w -> ~ white c -> B p (c :: s) -> fields_upto B ((f, p) :: fs) (w ++ c :: s)
| fs_later : forall f p fs w c s o e, Forall white w -> ~ white c -> reads_field f p (c :: s) o e -> fields_upto B fs e ->
    fields_upto B ((f, p) :: fs) (w ++ c :: s).
Definition fields_break (fs : list (fmt * pres)) (s : bytes) (x : fault) : Prop := fields_upto (fun p s => field_breaks p s x) fs s.
(** The fields are read up to a name that does not fit into 255 octets. *)
Definition fields_too_long (fs : list (fmt * pres)) (s : bytes) : Prop :=
  fields_upto (fun p s => p = PName /\ exists t e, word s t e /\ size_failure same t) fs s.

(** The generic form with nothing behind the introduction: the length is never set. *)
Definition generic_breaks (s : bytes) : Prop := exists w, s = 92 :: 35 :: w /\ w <> [] /\ Forall white w.
