(** PropZonefile.v: C135-C138 (libmy/zonefile.c), over every sequence of results of the ldns parser. *)
From Verif Require Import Base Lib Libc ModelZonefile SpecZonefile.

Definition reading (z : zonefile) (l : list event) : Prop :=
  zf_valid z = true /\ zf_soa z = None /\ ((zf_eof z = true /\ l = []) \/ (zf_eof z = false /\ zs_events (zf_fp z) = l /\ (zs_feof (zf_fp z) = true -> l = []))).
Definition some_one (o : option zrr) : Z := match o with Some _ => 1 | None => 0 end.
Lemma loop_one : forall l d, delivers l d -> forall z fuel, zf_eof z = false -> zf_valid z = true -> zf_soa z = None -> zs_events (zf_fp z) = l -> (zs_feof (zf_fp z) = true -> l = []) -> (length l + 2 <= fuel)%nat ->
  exists s o z', read_loop fuel z None = Ok (s, o, z') /\ zf_count z' = zf_count z + some_one o /\ zf_domain z' = zf_domain z /\
  match d with [] => (s, o) = (0, None) /\ reading z' [] | x :: d' => (s, o) = x /\ exists l', delivers l' d' /\ reading z' l' /\ (length l' <= length l)%nat end.
Proof.
  intros l d D. induction D as [|l d D IH|r l d N D IH|r l d N D IH|s l d D IH]; intros z fuel Ez V S Q F L; (destruct fuel as [|fuel]; [lia|]); cbn [read_loop].
  - destruct (zs_feof (zf_fp z)) eqn:E.
    + do 3 eexists. split; [reflexivity|]. cbn [zf_count zf_domain some_one]. split; [lia|]. split; [auto|]. split; [auto|]. unfold reading. cbn. auto.
    + unfold parse. rewrite Q. destruct fuel as [|fuel]; [cbn in L; lia|]. cbn [read_loop zf_fp zs_feof]. do 3 eexists. split; [reflexivity|]. cbn [zf_count zf_domain some_one]. split; [lia|]. split; [auto|]. split; [auto|]. unfold reading. cbn. auto.
  - destruct (zs_feof (zf_fp z)) eqn:E; [specialize (F eq_refl); discriminate|]. unfold parse. rewrite Q. cbn [length] in L.
    match goal with |- context [read_loop fuel ?z1 None] => destruct (IH z1 fuel) as (s & o & z' & R & C & Dm & M) end; cbn [zf_eof zf_valid zf_soa zf_fp zs_events zs_feof]; auto; [destruct l; [auto|discriminate]|lia|].
    exists s, o, z'. split; [exact R|]. split; [exact C|]. split; [exact Dm|]. destruct d as [|x d]; [exact M|]. destruct M as (M1 & l' & M2 & M3 & M4). split; [exact M1|]. exists l'. cbn [length]. auto.
  - destruct (zs_feof (zf_fp z)) eqn:E; [specialize (F eq_refl); discriminate|]. unfold parse. rewrite Q. unfold is_soa in N. replace (z_type r =? LDNS_RR_TYPE_SOA) with false by (unfold LDNS_RR_TYPE_SOA; lia).
    do 3 eexists. split; [reflexivity|]. cbn [zf_count zf_domain some_one]. split; [lia|]. split; [auto|]. split; [auto|]. exists l. split; [auto|]. split; [|cbn; lia]. unfold reading. cbn. split; [auto|]. split; [auto|]. right. split; [auto|]. split; [auto|]. destruct l; [auto|discriminate].
  - destruct (zs_feof (zf_fp z)) eqn:E; [specialize (F eq_refl); discriminate|]. unfold parse. rewrite Q. unfold is_soa in N. rewrite N. change (6 =? LDNS_RR_TYPE_SOA) with true. cbv iota.
    do 3 eexists. split; [reflexivity|]. cbn [zf_count zf_domain some_one]. split; [lia|]. split; [auto|]. split; [auto|]. exists l. split; [auto|]. split; [|cbn; lia]. unfold reading. cbn. split; [auto|]. split; [auto|]. right. split; [auto|]. split; [auto|]. destruct l; [auto|discriminate].
  - destruct (zs_feof (zf_fp z)) eqn:E; [specialize (F eq_refl); discriminate|]. unfold parse. rewrite Q.
    do 3 eexists. split; [reflexivity|]. cbn [zf_count zf_domain some_one]. split; [lia|]. split; [auto|]. split; [auto|]. exists l. split; [auto|]. split; [|cbn; lia]. unfold reading. cbn. split; [auto|]. split; [auto|]. right. split; [auto|]. split; [auto|]. destruct l; [auto|discriminate].
Qed.
Lemma read_one : forall l d z fuel, delivers l d -> reading z l -> (length l + 2 <= fuel)%nat ->
  exists s o z', zonefile_read fuel z None = Ok (s, o, z') /\ zf_count z' = zf_count z + some_one o /\ zf_domain z' = zf_domain z /\
  match d with [] => (s, o) = (0, None) /\ reading z' [] | x :: d' => (s, o) = x /\ exists l', delivers l' d' /\ reading z' l' /\ (length l' <= length l)%nat end.
Proof.
  intros l d z fuel D (V & S & [[E ->]|(E & Q & F)]) L; unfold zonefile_read; rewrite E.
  - inversion D; subst. do 3 eexists. split; [reflexivity|]. cbn [some_one]. split; [lia|]. split; [auto|]. split; [auto|]. unfold reading. auto.
  - rewrite V. cbn [negb]. rewrite S. apply loop_one; auto.
Qed.
Lemma reads_nil : forall n z fuel, reading z [] -> (2 <= fuel)%nat -> exists z', zonefile_reads n fuel z = Ok (repeat (0, None) n, z') /\ zf_count z' = zf_count z /\ zf_domain z' = zf_domain z /\ reading z' [].
Proof.
  induction n as [|n IH]; intros z fuel R L; cbn [zonefile_reads repeat]; [eauto 10|]. destruct (read_one [] [] z fuel (dl_end) R L) as (s & o & z' & E & C & Dm & M & R'). injection M as -> ->. rewrite E. cbn [bind]. destruct (IH z' fuel R' L) as (z2 & E2 & C2 & D2 & R2). rewrite E2. cbn [bind]. exists z2. cbn [some_one] in C. repeat split; auto; try congruence; try lia; apply R2.
Qed.
Lemma reads_all : forall n l d z fuel, delivers l d -> reading z l -> (length l + 2 <= fuel)%nat -> exists z' l', zonefile_reads n fuel z = Ok (first_calls n d, z') /\ zf_count z' = zf_count z + zlen (records (first_calls n d)) /\ zf_domain z' = zf_domain z /\ reading z' l'.
Proof.
  induction n as [|n IH]; intros l d z fuel D R L; cbn [zonefile_reads].
  - exists z, l. unfold first_calls. cbn. split; [auto|]. split; [lia|auto].
  - destruct (read_one l d z fuel D R L) as (s & o & z1 & E & C & Dm & M). rewrite E. cbn [bind]. destruct d as [|x d].
    + destruct M as [M R1]. injection M as -> ->. cbn [some_one] in C. destruct (reads_nil n z1 fuel R1 ltac:(lia)) as (z2 & E2 & C2 & D2 & R2). rewrite E2. cbn [bind]. exists z2, []. unfold first_calls. cbn [firstn length Nat.sub app repeat].
      split; [auto|]. split; [|split; [congruence|exact R2]]. rewrite C2, C. assert (Z0 : records ((0, None) :: repeat (0, None) n) = []); [|rewrite Z0; cbn; lia]. change ((0, None) :: repeat (0, None) n) with (repeat (0, @None zrr) (S n)). clear. induction (S n) as [|k IH]; [auto|exact IH].
    + destruct M as [M (l' & D' & R' & L')]. destruct (IH l' d z1 fuel D' R' ltac:(lia)) as (z2 & l2 & E2 & C2 & D2 & R2). rewrite E2. cbn [bind]. exists z2, l2. rewrite <- M. unfold first_calls in *. cbn [firstn length Nat.sub app].
      split; [auto|]. split; [|split; [congruence|exact R2]]. rewrite C2, C. cbn [records flat_map snd]. destruct o; cbn [some_one app]; unfold zlen, records in *; cbn [length]; lia.
Qed.
Lemma soa_blanks : forall a e l tight fuel, Forall (eq Blank) a -> e <> Blank -> (length a + 1 <= fuel)%nat -> exists f', soa_loop fuel (fresh (a ++ e :: l) tight) = Ok (e, f') /\ zs_events f' = l /\ (zs_feof f' = true -> l = []).
Proof.
  induction a as [|x a IH]; intros e l tight fuel F N L; (destruct fuel as [|fuel]; [cbn in L; lia|]); cbn [soa_loop app fresh]; unfold parse, fresh; cbn [zs_events zs_tight].
  - destruct e; [| contradiction |]; (eexists; split; [reflexivity|]; cbn; split; [auto|]; destruct l; [auto|discriminate]).
  - inversion F as [|? ? X F']; subst. destruct (a ++ e :: l) as [|y q] eqn:Q; [destruct a; discriminate|]. rewrite <- Q. apply IH; auto. cbn in L. lia.
Qed.
(** What an open zone file is after its first line that counts. *)
Lemma init_soa : forall a r l tight fuel, Forall (eq Blank) a -> is_soa r -> (length a + 1 <= fuel)%nat ->
  exists f', zonefile_init fuel (fresh (a ++ Rec r :: l) tight) = Ok (Some {| zf_fp := f'; zf_eof := false; zf_valid := true; zf_domain := z_owner r; zf_soa := Some r; zf_count := 1 |}) /\ zs_events f' = l /\ (zs_feof f' = true -> l = []).
Proof.
  intros a r l tight fuel F S L. destruct (soa_blanks a (Rec r) l tight fuel F ltac:(discriminate) L) as (f' & E & Q & G). exists f'. split; [|auto]. unfold zonefile_init. rewrite E. cbn [bind]. unfold is_soa in S. rewrite S. reflexivity.
Qed.

(** ** C135 *)
(** Opening succeeds when the first record is an SOA record, with its owner as the domain; it gives NULL when it is another record or an error. *)
Theorem C135_init : forall a e l tight fuel, Forall (eq Blank) a -> e <> Blank -> (length a + 1 <= fuel)%nat ->
  match zonefile_init fuel (fresh (a ++ e :: l) tight) with
  | Ok (Some z) => exists r, e = Rec r /\ is_soa r /\ zonefile_get_domain z = z_owner r /\ zonefile_get_count z = 1 /\ zonefile_get_serial z = Ok (z_serial r)
  | Ok None => forall r, e = Rec r -> ~ is_soa r
  | _ => False
  end.
Proof.
  intros a e l tight fuel F N L. destruct (soa_blanks a e l tight fuel F N L) as (f' & E & _). unfold zonefile_init. rewrite E. cbn [bind]. destruct e as [r| |s]; [|contradiction|intros r H; discriminate]. unfold LDNS_RR_TYPE_SOA, is_soa. destruct (z_type r =? 6) eqn:T.
  - exists r. split; [auto|]. split; [lia|]. cbn. auto.
  - intros r' H. assert (r' = r) by congruence. subst. lia.
Qed.
Print Assumptions C135_init.
(** The calls of zonefile_read deliver the SOA record and then what follows in the file, in order: records; NULL for another SOA record; the status of an
    error; at the end NULL for ever. The count is that of the records delivered. *)
Theorem C135_reads : forall a r l d tight fuel n, Forall (eq Blank) a -> is_soa r -> delivers l d -> (length a + length l + 2 <= fuel)%nat ->
  exists z z', zonefile_init fuel (fresh (a ++ Rec r :: l) tight) = Ok (Some z) /\ zonefile_reads n fuel z = Ok (first_calls n ((0, Some r) :: d), z') /\
  zonefile_get_count z' = Z.max 1 (zlen (records (first_calls n ((0, Some r) :: d)))) /\ zonefile_get_domain z' = z_owner r.
Proof.
  intros a r l d tight fuel n F S D L. destruct (init_soa a r l tight fuel F S ltac:(lia)) as (f' & E & Q & G). eexists. destruct n as [|n].
  - eexists. split; [exact E|]. cbn [zonefile_reads]. split; [reflexivity|]. unfold first_calls. cbn. split; auto.
  - pose (z1 := {| zf_fp := f'; zf_eof := false; zf_valid := true; zf_domain := z_owner r; zf_soa := @None zrr; zf_count := 1 |}).
    assert (Rz : reading z1 l) by (unfold reading; cbn; split; [auto|]; split; [auto|]; right; split; [auto|]; split; auto). destruct (reads_all n l d z1 fuel D Rz ltac:(lia)) as (z' & l' & E2 & C2 & D2 & R2).
    exists z'. split; [exact E|]. cbn [zonefile_reads]. unfold zonefile_read. cbn [zf_eof zf_valid negb zf_soa zf_count]. change (1 =? 1) with true. cbv iota. cbn [bind]. fold z1. cbn [zf_fp zf_eof zf_valid zf_domain]. fold z1. rewrite E2. cbn [bind].
    unfold first_calls in *. cbn [firstn length Nat.sub app]. split; [reflexivity|]. unfold zonefile_get_count, zonefile_get_domain. cbn [records flat_map snd app]. rewrite C2, D2. cbn [zf_count z1 zf_domain]. unfold records, zlen. cbn [length]. split; [lia|auto].
Qed.
Print Assumptions C135_reads.
(** Every file delivers something. *)
Lemma delivers_total : forall l, exists d, delivers l d.
Proof. induction l as [|[r| |s] l [d D]]; [exists []; constructor| | |]; [destruct (Z.eq_dec (z_type r) 6)| |]; eexists; [apply dl_soa|apply dl_rec|apply dl_blank|apply dl_bad]; eauto. Qed.
Lemma body_delivers : forall l rs, body l rs -> delivers l (map (fun x => (0, Some x)) rs).
Proof. intros l rs B. induction B; cbn [map]; constructor; auto. Qed.
(** Of a proper zone all records are delivered once and in order, and then NULL. *)
Theorem C135_zone : forall evs r rs tight, zone evs r rs -> exists N, forall fuel n, (N <= fuel)%nat -> exists z z',
  zonefile_init fuel (fresh evs tight) = Ok (Some z) /\
  zonefile_reads (length (r :: rs) + n) fuel z = Ok (map (fun x => (0, Some x)) (r :: rs) ++ repeat (0, None) n, z') /\ zonefile_get_count z' = zlen (r :: rs) /\ zonefile_get_domain z' = z_owner r.
Proof.
  intros evs r rs tight H. destruct H as [a r l rs F S B]. exists (length a + length l + 2)%nat. intros fuel n L. apply body_delivers in B.
  destruct (C135_reads a r l _ tight fuel (length (r :: rs) + n) F S B L) as (z & z' & E & E2 & C & Dm). exists z, z'. split; [exact E|].
  assert (Q : first_calls (length (r :: rs) + n) ((0, Some r) :: map (fun x => (0, Some x)) rs) = map (fun x => (0, Some x)) (r :: rs) ++ repeat (0, None) n).
  { unfold first_calls. change ((0, Some r) :: map (fun x => (0, Some x)) rs) with (map (fun x => (0, Some x)) (r :: rs)). set (m := map (fun x => (0, Some x)) (r :: rs)). assert (Lm : length m = length (r :: rs)) by apply map_length. rewrite <- Lm. rewrite firstn_all2 by lia. f_equal. f_equal. lia. }
  rewrite Q in *. split; [exact E2|]. split; [|exact Dm]. rewrite C.
  assert (R : records (map (fun x => (0, Some x)) (r :: rs) ++ repeat (0, None) n) = r :: rs).
  { unfold records. rewrite flat_map_app. replace (flat_map _ (repeat (0, None) n)) with (@nil zrr) by (clear; induction n; auto). rewrite app_nil_r. generalize (r :: rs). clear. induction l as [|x l IH]; cbn [map flat_map snd app]; [auto|]. rewrite IH. auto. }
  rewrite R. unfold zlen. cbn [length]. lia.
Qed.
Print Assumptions C135_zone.
Lemma nth_skip : forall (l : bytes) n k, nth k (skipn n l) 0 = nth (n + k) l 0.
Proof. induction l as [|x l IH]; intros [|n] k; cbn [skipn Nat.add]; auto; [destruct k; auto|]. rewrite IH. auto. Qed.
(** A file is decompressed by the command "zcat" and its name when its name ends in .gz; otherwise it is opened itself. *)
Theorem C135_open : forall fname, open_how fname = Popen (lit "zcat " ++ fname) /\ (exists b, fname = b ++ lit ".gz") \/ open_how fname = Fopen fname /\ ~ exists b, fname = b ++ lit ".gz".
Proof.
  intros fname. unfold open_how. change (lit ".gz") with [46; 103; 122]. match goal with |- context [if ?c then _ else _] => destruct c eqn:E end.
  - left. split; [auto|]. exists (firstn (length fname - 3) fname). rewrite <- (firstn_skipn (length fname - 3) fname) at 1. f_equal.
    rewrite !andb_true_iff in E. destruct E as [[[L A] B] C]. apply Nat.leb_le in L. assert (Lk : length (skipn (length fname - 3) fname) = 3%nat) by (rewrite skipn_length; lia).
    assert (Nt : forall k, nth k (skipn (length fname - 3) fname) 0 = nth (length fname - 3 + k) fname 0) by (intros k; apply nth_skip).
    destruct (skipn (length fname - 3) fname) as [|x [|y [|z [|]]]]; try discriminate. pose proof (Nt 0%nat) as N0. pose proof (Nt 1%nat) as N1. pose proof (Nt 2%nat) as N2. cbn [nth] in N0, N1, N2.
    replace (length fname - 3 + 0)%nat with (length fname - 3)%nat in N0 by lia. replace (length fname - 3 + 1)%nat with (length fname - 2)%nat in N1 by lia. replace (length fname - 3 + 2)%nat with (length fname - 1)%nat in N2 by lia.
    f_equal; [lia|]. f_equal; [lia|]. f_equal. lia.
  - right. split; [auto|]. intros [b ->]. rewrite app_length in E. cbn [length] in E. replace (length b + 3 - 3)%nat with (length b + 0)%nat in E by lia. replace (length b + 3 - 2)%nat with (length b + 1)%nat in E by lia. replace (length b + 3 - 1)%nat with (length b + 2)%nat in E by lia.
    rewrite !app_nth2_plus in E. cbn [nth] in E. replace (3 <=? length b + 3)%nat with true in E by (symmetry; apply Nat.leb_le; lia). discriminate.
Qed.
Print Assumptions C135_open.
Example C135_example : let soa := {| z_type := 6; z_owner := [1; 97; 0]; z_serial := 9; z_id := 1 |} in let ns := {| z_type := 2; z_owner := [1; 97; 0]; z_serial := 0; z_id := 2 |} in
  zone [Blank; Rec soa; Blank; Rec ns] soa [ns] /\ open_how (lit "a.gz") = Popen (lit "zcat a.gz").
Proof.
  split; [|reflexivity]. apply (zn [Blank] _ [Blank; Rec _]); [repeat constructor|reflexivity|]. apply bd_blank, bd_rec, bd_end. unfold is_soa. cbn. lia.
Qed.

(** ** C136: opening a file returns *)
(** It never does for a file of comments and blank lines only, or an empty one. *)
Theorem C136_empty_zone_refuted : forall events tight fuel, Forall (eq Blank) events -> zonefile_init fuel (fresh events tight) = NoFuel.
Proof.
  intros events tight fuel F. assert (G : forall fuel l t b, Forall (eq Blank) l -> soa_loop fuel {| zs_events := l; zs_tight := t; zs_feof := b |} = NoFuel).
  { clear. induction fuel as [|fuel IH]; intros l t b F; cbn [soa_loop]; [auto|]. unfold parse. cbn [zs_events zs_tight]. destruct l as [|e l]; [apply IH; auto|]. inversion F; subst. apply IH. auto. }
  unfold zonefile_init, fresh. rewrite G by auto. reflexivity.
Qed.
Print Assumptions C136_empty_zone_refuted.
(** ** C137: the serial of an open zone *)
(** After the first zonefile_read there is no serial: the assertion fails. *)
Theorem C137_serial_refuted : forall a r l tight fuel o, Forall (eq Blank) a -> is_soa r -> (length a + 1 <= fuel)%nat ->
  exists z s o' z', zonefile_init fuel (fresh (a ++ Rec r :: l) tight) = Ok (Some z) /\ zonefile_get_serial z = Ok (z_serial r) /\ zonefile_read fuel z o = Ok (s, o', z') /\ zonefile_get_serial z' = UB AssertFail.
Proof.
  intros a r l tight fuel o F S L. destruct (init_soa a r l tight fuel F S L) as (f' & E & _). do 4 eexists. split; [exact E|]. split; [reflexivity|]. split; [reflexivity|]. reflexivity.
Qed.
Print Assumptions C137_serial_refuted.
(** ** C138: NULL with status OK means the end *)
(** A second SOA record gives NULL too, and the next call a record. *)
Theorem C138_end_refuted : forall r s x tight, is_soa r -> is_soa s -> ~ is_soa x -> exists z z',
  zonefile_init 9 (fresh [Rec r; Rec s; Rec x] tight) = Ok (Some z) /\ zonefile_reads 3 9 z = Ok ([(0, Some r); (0, None); (0, Some x)], z').
Proof.
  intros r s x tight R S X. assert (D : delivers [Rec s; Rec x] [(0, None); (0, Some x)]) by (apply dl_soa; [auto|]; apply dl_rec; [auto|]; apply dl_end).
  destruct (C135_reads [] r [Rec s; Rec x] [(0, None); (0, Some x)] tight 9 3 (Forall_nil _) R D ltac:(cbn; lia)) as (z & z' & E & Q & _). exists z, z'. split; [exact E|exact Q].
Qed.
Print Assumptions C138_end_refuted.
