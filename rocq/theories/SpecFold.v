(** SpecFold.v: what wdns_downcase_rdata does to any octets, well-formed or not; independently of the C code. *)
From Verif Require Import Base Lib SpecName SpecMessage.

Definition is_fixed (f : fmt) : Prop := match f with FFixed _ => True | _ => False end.

(** [folds fs l ok l']: rdata [l] with the fields [fs] becomes [l'], and is accepted or not. A name is taken to be the octets
    up to the first zero octet (length octets are not followed); an A6 prefix length is taken to be an octet count. *)
Inductive folds : list fmt -> bytes -> bool -> bytes -> Prop :=
| fo_end : folds [] [] true []
| fo_surplus : forall l, l <> [] -> folds [] l false l
| fo_absent : forall f fs, folds (f :: fs) [] true []
| fo_name : forall fs a l ok l', ~ In 0 a -> folds fs l ok l' -> folds (FName :: fs) (a ++ 0 :: l) ok (lower_label a ++ 0 :: l')
| fo_endless : forall fs a, a <> [] -> ~ In 0 a -> Forall is_fixed fs -> folds (FName :: fs) a false (lower_label a)
| fo_endless_rest : forall f fs a, a <> [] -> ~ In 0 a -> to_end f = true -> folds (FName :: f :: fs) a true (lower_label a)
| fo_fixed : forall n fs o l ok l', zlen o = n -> o <> [] -> folds fs l ok l' -> folds (FFixed n :: fs) (o ++ l) ok (o ++ l')
| fo_fixed_short : forall n fs l, l <> [] -> zlen l < n -> folds (FFixed n :: fs) l false l
| fo_string : forall fs o l ok l', folds fs l ok l' -> folds (FString :: fs) (zlen o :: o ++ l) ok (zlen o :: o ++ l')
| fo_string_short : forall fs c l, zlen l < c -> folds (FString :: fs) (c :: l) false (c :: l)
| fo_prefix : forall fs o l ok l', zlen o <= 16 -> folds fs l ok l' -> folds (FPrefix6 :: fs) (zlen o :: o ++ l) ok (zlen o :: o ++ l')
| fo_prefix_bad : forall fs c l, zlen l < c \/ 16 < c -> folds (FPrefix6 :: fs) (c :: l) false (c :: l)
| fo_rest : forall f fs l, to_end f = true -> l <> [] -> folds (f :: fs) l true l.

(** No text for these: a name without an end in front of another name. *)
Inductive two_endless : list fmt -> bytes -> Prop :=
| te_here : forall fs a, a <> [] -> ~ In 0 a -> two_endless (FName :: FName :: fs) a
| te_name : forall fs a l, ~ In 0 a -> two_endless fs l -> two_endless (FName :: fs) (a ++ 0 :: l)
| te_fixed : forall n fs o l, zlen o = n -> o <> [] -> two_endless fs l -> two_endless (FFixed n :: fs) (o ++ l)
| te_string : forall fs o l, two_endless fs l -> two_endless (FString :: fs) (zlen o :: o ++ l)
| te_prefix : forall fs o l, zlen o <= 16 -> two_endless fs l -> two_endless (FPrefix6 :: fs) (zlen o :: o ++ l).

(** Several rdatas: up to and including the first that is not accepted. *)
Inductive all_fold (fs : list fmt) : list bytes -> bool -> list bytes -> Prop :=
| af_nil : all_fold fs [] true []
| af_good : forall d d' ds ok ds', folds fs d true d' -> all_fold fs ds ok ds' -> all_fold fs (d :: ds) ok (d' :: ds')
| af_bad : forall d d' ds, folds fs d false d' -> all_fold fs (d :: ds) false (d' :: ds).
