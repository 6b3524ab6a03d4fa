(** SpecSpool.v: what a spool directory promises, independently of the C code. *)
From Verif Require Import Base Libc ModelSpool.

(** A name that may be taken: it does not begin with a dot and is a regular file in incoming/. *)
Definition eligible (fs : spoolfs) (f : bytes) : Prop := hd 0 f <> 46 /\ exists id, s_inc fs f = Some (Reg id).
(** [f] is the first such name of the list. *)
Definition first_eligible (fs : spoolfs) (names : list bytes) (f : bytes) : Prop :=
  exists a b, names = a ++ f :: b /\ eligible fs f /\ forall g, In g a -> ~ eligible fs g.
Definition active_path (dir f : bytes) : bytes := dir ++ lit "/active/" ++ f.

(** Histories of one consumer: files are put into incoming/ under free names, other entries appear there, anything happens in active/, and
    spooldir_next is called while readdir returns any names. [added]: the files that were there or were put there; [out]: those returned. *)
Inductive reached (dir : bytes) : list Z -> list Z -> spoolfs -> Prop :=
| r_start : forall fs added, (forall id, In id added <-> exists n, s_inc fs n = Some (Reg id)) -> (forall m n id, s_inc fs m = Some (Reg id) -> s_inc fs n = Some (Reg id) -> m = n) -> reached dir added [] fs
| r_add : forall added out fs n id, reached dir added out fs -> s_inc fs n = None -> ~ In id added -> reached dir (id :: added) out {| s_inc := at_name (s_inc fs) n (Some (Reg id)); s_act := s_act fs |}
| r_other : forall added out fs n v, reached dir added out fs -> (s_inc fs n = None \/ s_inc fs n = Some Other) -> v = None \/ v = Some Other -> reached dir added out {| s_inc := at_name (s_inc fs) n v; s_act := s_act fs |}
| r_active : forall added out fs act, reached dir added out fs -> reached dir added out {| s_inc := s_inc fs; s_act := act |}
| r_null : forall added out fs names fs' l, reached dir added out fs -> spooldir_next dir names fs = (None, fs', l) -> reached dir added out fs'
| r_take : forall added out fs names f id fs' l, reached dir added out fs -> spooldir_next dir names fs = (Some (active_path dir f), fs', l) -> s_act fs' f = Some (Reg id) -> reached dir added (out ++ [id]) fs'.

(** Threads that have registered after a schedule. *)
Definition registered (t : Z) (s : tn_state) : Prop := tn_pcs s t = TnDone.
