(** SpecStrName.v: reading of a name in text form, with a treatment [g] of unescaped characters (the identity for the
    case-preserving function, lower-casing for the other one), and the reasons why such a text is not a name. Nothing
    here mentions the C code. *)
From Verif Require Import Base Lib SpecName.

(** An unescaped capital becomes the small letter; nothing else changes. *)
Definition small (c : Z) : Z := if (65 <=? c) && (c <=? 90) then c + 32 else c.
Definition same (c : Z) : Z := c.

(** One written character and the octet it stands for; escaped characters do not go through [g]. *)
Inductive wchar (g : Z -> Z) : bytes -> Z -> Prop :=
| wc_plain : forall c, c <> 92 -> c <> 46 -> wchar g [c] (g c)
| wc_quote : forall c, ~ digit c -> wchar g [92; c] c
| wc_ddd : forall a b c, digit a -> digit b -> digit c -> (a - 48) * 100 + (b - 48) * 10 + (c - 48) <= 255 ->
    wchar g [92; a; b; c] ((a - 48) * 100 + (b - 48) * 10 + (c - 48)).

Inductive wlabel (g : Z -> Z) : bytes -> label -> Prop :=
| wl_nil : wlabel g [] []
| wl_cons : forall t c t' l, wchar g t c -> wlabel g t' l -> wlabel g (t ++ t') (c :: l).

(** Complete labels, each non-empty and followed by a dot. *)
Inductive wlabels (g : Z -> Z) : bytes -> lname -> Prop :=
| ws_nil : wlabels g [] []
| ws_cons : forall t l s ls, wlabel g t l -> l <> [] -> wlabels g s ls -> wlabels g (t ++ 46 :: s) (l :: ls).

(** The whole text: the root is "" or ".", otherwise complete labels and possibly a last one without its dot. *)
Inductive written (g : Z -> Z) : bytes -> lname -> Prop :=
| wr_empty : written g [] []
| wr_dot : written g [46] []
| wr_dotted : forall s ls, wlabels g s ls -> ls <> [] -> written g s ls
| wr_undotted : forall s ls t l, wlabels g s ls -> wlabel g t l -> l <> [] -> written g (s ++ t) (ls ++ [l]).

(** A beginning of the text: complete labels [ls], then the octets [cur] of a label not yet ended, which so far take
    [room ls cur] octets on the wire (one for the length octet of the label being read or for the root). *)
Definition begun (g : Z -> Z) (u : bytes) (ls : lname) (cur : label) : Prop :=
  exists s t, u = s ++ t /\ wlabels g s ls /\ wlabel g t cur.
Definition room (ls : lname) (cur : label) : Z := zlen (prewire ls) + 1 + zlen cur.

(** What cannot follow: a dot that ends an empty label, or a backslash with a digit that is not the first of three
    digits of a number up to 255. *)
Definition ddd_escape (r : bytes) : Prop :=
  exists a b c r', r = a :: b :: c :: r' /\ digit a /\ digit b /\ digit c /\
    (a - 48) * 100 + (b - 48) * 10 + (c - 48) <= 255.
Definition misplaced (cur : label) (r : bytes) : Prop :=
  (cur = [] /\ exists r', r = 46 :: r') \/
  (exists a r', r = 92 :: a :: r' /\ digit a /\ ~ ddd_escape (a :: r')).

(** The three ways to fail. A text fails at the first of these places. *)
Definition syntax_failure (g : Z -> Z) (s : bytes) : Prop :=
  s <> [46] /\ exists u r ls cur, s = u ++ r /\ begun g u ls cur /\ room ls cur < 255 /\ misplaced cur r.
Definition size_failure (g : Z -> Z) (s : bytes) : Prop :=
  exists u r ls cur, s = u ++ r /\ begun g u ls cur /\ room ls cur = 255 /\ (r <> [] \/ cur <> []).
(** A lone backslash at the end. *)
Definition cut_escape (g : Z -> Z) (s : bytes) : Prop :=
  exists u ls cur, s = u ++ [92] /\ begun g u ls cur /\ room ls cur < 255.
