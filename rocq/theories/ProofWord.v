(** ProofWord.v: type names, keys and addresses, exactly. *)
From Verif Require Import Base Lib SpecName SpecStrName SpecText SpecFormat SpecRead SpecTables SpecWord Libc ModelName ModelTables ModelFromStr ProofTables ProofStrName ProofRoundTrip2 ProofFormat ProofRead1 ProofRead3 ProofFromSafe ProofReadSvc ProofInet ProofInet6.

(** ** Integers *)
Lemma white_split : forall t, exists w, t = w ++ skip_space t /\ Forall white w.
Proof. induction t as [|c t (w & E & F)]; [exists []; auto|]. cbn [skip_space]. destruct (isspace c) eqn:W; [exists (c :: w); cbn [app]; rewrite <- E; split; auto; constructor; auto; apply white_iff; auto|exists []; auto]. Qed.
Lemma strtol_signed : forall t v, t <> [] -> strtol t = (v, []) -> exists x, c_signed t x /\ v = Z.max (- 2 ^ 63) (Z.min (2 ^ 63 - 1) x).
Proof.
  intros t v N. unfold strtol. change (- 2 ^ 63) with (-9223372036854775808). change (2 ^ 63 - 1) with 9223372036854775807. intros H.
  destruct (scan_sign (skip_space t)) as [neg q] eqn:SG. destruct (scan_digits q 0 false) as [[x seen] r] eqn:SD. destruct seen; [|congruence].
  assert (r = []) by congruence. subst r. assert (F := scan_digits_end _ _ _ _ _ SD). assert (NQ : q <> []) by (intros ->; cbn in SD; congruence).
  rewrite scan_all in SD by auto. assert (x = dec_value q) by congruence. subst x. pose proof (dec_value_nonneg q F) as P.
  destruct (white_split t) as (w & EQ & FW). unfold scan_sign in SG. destruct (skip_space t) as [|c s] eqn:SK; [congruence|].
  assert (NU : numeral q (dec_value q)) by (split; auto).
  destruct (c =? 45) eqn:M.
  { assert (neg = true /\ q = s) as [-> ->] by (split; congruence). exists (- dec_value s). split; [|assert (v = Z.max (-9223372036854775808) (- dec_value s)) by congruence; lia].
    exists w, [45], s, (dec_value s). rewrite EQ. split; [replace c with 45 by lia; reflexivity|]. split; [auto|]. split; auto. }
  assert (neg = false) by (destruct (c =? 43); congruence). subst neg. assert (V : v = Z.min 9223372036854775807 (dec_value q)) by congruence. exists (dec_value q). split; [|lia].
  destruct (c =? 43) eqn:Pl.
  - assert (q = s) by congruence. subst q. exists w, [43], s, (dec_value s). rewrite EQ. split; [replace c with 43 by lia; reflexivity|]. split; [auto|]. split; auto.
  - assert (q = c :: s) by congruence. subst q. exists w, [], (c :: s), (dec_value (c :: s)). split; [exact EQ|]. split; [auto|]. split; auto.
Qed.
Lemma signed_strtol : forall t x, c_signed t x -> strtol t = (Z.max (- 2 ^ 63) (Z.min (2 ^ 63 - 1) x), []) /\ t <> [].
Proof.
  intros t x (w & sg & d & n & -> & FW & (ND & FD & ->) & H). unfold strtol. change (- 2 ^ 63) with (-9223372036854775808). change (2 ^ 63 - 1) with 9223372036854775807.
  pose proof (dec_value_nonneg d FD) as P. split; [|destruct w; [destruct H as [([->| ->] & _)|(-> & _)]; auto; discriminate|discriminate]].
  rewrite white_skip by auto. destruct d as [|c d]; [congruence|]. pose proof (Forall_inv FD) as D. unfold digit in D.
  destruct H as [([->| ->] & ->)|(-> & ->)]; cbn [app skip_space].
  - replace (isspace c) with false by (unfold isspace; lia). unfold scan_sign. replace (c =? 45) with false by lia. replace (c =? 43) with false by lia. rewrite scan_all by auto. f_equal. lia.
  - change (isspace 43) with false. unfold scan_sign. change (43 =? 45) with false. change (43 =? 43) with true. cbv iota. rewrite scan_all by auto. f_equal. lia.
  - change (isspace 45) with false. unfold scan_sign. change (45 =? 45) with true. cbv iota. rewrite scan_all by auto. f_equal. lia.
Qed.

(** ** Types and classes *)
Lemma prefix_caseeq_split : forall p s, prefix_caseeq p s = true -> Forall (fun c => 0 < c < 256) s -> Forall (fun c => 65 <= c <= 90) p -> exists q e, s = q ++ e /\ same_letters q p /\ length q = length p.
Proof.
  induction p as [|x p IH]; intros s E C U; [exists [], s; repeat split; constructor|]. destruct s as [|y s]; [discriminate|]. cbn [prefix_caseeq] in E. apply andb_prop in E as [E1 E2].
  inversion C; subst. inversion U; subst. destruct (IH s E2 H2 H4) as (q & e & -> & S & L). exists (y :: q), e. split; [reflexivity|]. split; [|cbn [length]; congruence]. constructor; auto.
  unfold tolower in E1. replace ((65 <=? x) && (x <=? 90)) with true in E1 by lia. destruct ((65 <=? y) && (y <=? 90)) eqn:G; lia.
Qed.
Section Code.
  Variables (t : list (bytes * Z)) (reg : list (Z * String.string)) (p : bytes).
  Hypothesis OK : check_table t reg p = true.
  Hypothesis UP : Forall (fun c => 65 <= c <= 90) p.
  Lemma generic_iff : forall s n, c_string s -> (convert_generic p s = Some n <-> exists q e, s = q ++ e /\ same_letters q p /\ c_signed e n /\ 0 <= n <= 65535).
  Proof.
    intros s n C. unfold convert_generic. split.
    - destruct (zlen s <=? zlen p) eqn:L; [discriminate|]. destruct (prefix_caseeq p s) eqn:P; [|discriminate]. cbn [negb]. destruct (prefix_caseeq_split p s P C UP) as (q & e & -> & S & Lq).
      replace (skipn (length p) (q ++ e)) with e by (rewrite <- Lq, skipn_app, skipn_all, Nat.sub_diag; reflexivity). destruct (strtol e) as [v r] eqn:E. destruct r; [|discriminate].
      destruct ((v <? 0) || (v >? 65535)) eqn:R; [discriminate|]. intros H. injection H as <-. assert (N : e <> []) by (intros ->; rewrite app_nil_r in L; unfold zlen in L; lia).
      destruct (strtol_signed e v N E) as (x & X & V). change (- 2 ^ 63) with (-9223372036854775808) in V. change (2 ^ 63 - 1) with 9223372036854775807 in V. assert (x = v) by lia. subst x. exists q, e. repeat split; auto; lia.
    - intros (q & e & -> & S & X & B). destruct (signed_strtol e n X) as (E & N). change (- 2 ^ 63) with (-9223372036854775808) in E. change (2 ^ 63 - 1) with 9223372036854775807 in E. pose proof (same_letters_length _ _ S) as L.
      rewrite zlen_app. assert (zlen q = zlen p) by (unfold zlen; lia). assert (1 <= zlen e) by (destruct e; [congruence|rewrite zlen_cons; pose proof (zlen_nonneg _ e); lia]).
      replace (zlen q + zlen e <=? zlen p) with false by lia. rewrite prefix_caseeq_app by auto. cbn [negb].
      replace (skipn (length p) (q ++ e)) with e by (rewrite <- L, skipn_app, skipn_all, Nat.sub_diag; reflexivity). rewrite E. replace (Z.max (-9223372036854775808) (Z.min 9223372036854775807 n)) with n by lia.
      replace ((n <? 0) || (n >? 65535)) with false by lia. reflexivity.
  Qed.
  Lemma lookup_iff : forall s n, c_string s -> (lookup t s = Some n <-> exists m, mnemonic reg n m /\ same_letters s m).
  Proof.
    intros s n C. split.
    - intros E. destruct (table_lookup_inv t reg p OK n s C E) as (m & M & S). exists m. split; auto. apply (table_registry t reg p OK). auto.
    - intros (m & M & S). apply (table_lookup t reg p OK n m s); auto. apply (table_registry t reg p OK). auto.
  Qed.
  Lemma generic_exclusive : forall s q e, c_string s -> s = q ++ e -> same_letters q p -> lookup t s = None.
  Proof. intros s q e C -> S. apply (generic_not_found t reg p OK); auto. apply prefix_caseeq_app. auto. Qed.
  Lemma code_iff : forall s n, c_string s -> (str_to_generic t p s = n <-> names_code reg p s n \/ (n = 0 /\ forall m, ~ names_code reg p s m)).
  Proof.
    intros s n C. unfold str_to_generic, names_code. destruct (lookup t s) as [v|] eqn:L.
    - pose proof (proj1 (lookup_iff s v C) L) as M. split; [intros <-; left; left; exact M|]. intros [[M'|(q & e & E & S & _)]|(-> & N)].
      + apply (lookup_iff s n C) in M'. congruence.
      + rewrite (generic_exclusive s q e C E S) in L. discriminate.
      + exfalso. apply (N v). auto.
    - destruct (convert_generic p s) as [v|] eqn:G.
      + pose proof (proj1 (generic_iff s v C) G) as M. split; [intros <-; left; right; exact M|]. intros [[M'|M']|(-> & N)].
        * apply (lookup_iff s n C) in M'. congruence.
        * apply (generic_iff s n C) in M'. congruence.
        * exfalso. apply (N v). auto.
      + split.
        * intros <-. right. split; auto. intros m [M|M]; [apply (lookup_iff s m C) in M|apply (generic_iff s m C) in M]; congruence.
        * intros [[M|M]|(-> & _)]; [apply (lookup_iff s n C) in M; congruence|apply (generic_iff s n C) in M; congruence|reflexivity].
  Qed.
End Code.

(** ** Keys *)
Lemma prefix_eq_split : forall p s, prefix_eq p s = true <-> exists e, s = p ++ e.
Proof.
  induction p as [|x p IH]; intros s; [split; [intros _; exists s; auto|auto]|]. destruct s as [|y s]; cbn [prefix_eq]; [split; [discriminate|intros (e & E); discriminate]|].
  rewrite andb_true_iff, IH. split; [intros (E & e & ->); exists e; cbn [app]; f_equal; lia|intros (e & E); cbn [app] in E; injection E as -> ->; split; [lia|eauto]].
Qed.
Lemma key_generic : forall e, (zlen e >? 0) = true -> str_to_svckey (lit "key" ++ e) = (let '(v, rest) := strtoul e in match rest with [] => if v >=? 65535 then 65535 else v | _ :: _ => 65535 end).
Proof.
  intros e He. unfold str_to_svckey. change (lit "key" ++ e) with (107 :: 101 :: 121 :: e).
  change (streq (107 :: 101 :: 121 :: e) (lit "mandatory")) with false. change (streq (107 :: 101 :: 121 :: e) (lit "alpn")) with false.
  change (streq (107 :: 101 :: 121 :: e) (lit "no-default-alpn")) with false. change (streq (107 :: 101 :: 121 :: e) (lit "port")) with false.
  change (streq (107 :: 101 :: 121 :: e) (lit "ech")) with false. change (streq (107 :: 101 :: 121 :: e) (lit "ipv4hint")) with false.
  change (streq (107 :: 101 :: 121 :: e) (lit "ipv6hint")) with false. change (prefix_eq (lit "key") (107 :: 101 :: 121 :: e)) with true. cbn [andb].
  rewrite !zlen_cons. replace (zlen e + 1 + 1 + 1 >? 3) with true by lia. cbn [skipn]. destruct (strtoul e) as [v [|]]; reflexivity.
Qed.
Lemma key_iff : forall s k, (str_to_svckey s = k /\ k <> 65535) <-> names_key s k.
Proof.
  intros s k. unfold names_key. split.
  - intros (E & N). assert (G : mnemonic iana_svckeys k s \/ prefix_eq (lit "key") s && (zlen s >? 3) = true).
    { unfold str_to_svckey in E. unfold mnemonic.
      destruct (streq s (lit "mandatory")) eqn:S; [left; apply streq_eq in S; subst k; exists "mandatory"%string; split; [cbn; auto|auto]|clear S].
      destruct (streq s (lit "alpn")) eqn:S; [left; apply streq_eq in S; subst k; exists "alpn"%string; split; [cbn; auto|auto]|clear S].
      destruct (streq s (lit "no-default-alpn")) eqn:S; [left; apply streq_eq in S; subst k; exists "no-default-alpn"%string; split; [cbn; auto|auto]|clear S].
      destruct (streq s (lit "port")) eqn:S; [left; apply streq_eq in S; subst k; exists "port"%string; split; [cbn; auto|auto]|clear S].
      destruct (streq s (lit "ech")) eqn:S; [left; apply streq_eq in S; subst k; exists "ech"%string; split; [cbn; auto 10|auto]|clear S].
      destruct (streq s (lit "ipv4hint")) eqn:S; [left; apply streq_eq in S; subst k; exists "ipv4hint"%string; split; [cbn; auto 10|auto]|clear S].
      destruct (streq s (lit "ipv6hint")) eqn:S; [left; apply streq_eq in S; subst k; exists "ipv6hint"%string; split; [cbn; auto 10|auto]|clear S].
      destruct (_ && _); [right; reflexivity|]. unfold spr_invalid in E. lia. }
    destruct G as [G|G]; [auto|right]. apply andb_prop in G as [P L]. apply prefix_eq_split in P as (e & ->). rewrite zlen_app in L. change (zlen (lit "key")) with 3 in L.
    rewrite key_generic in E by lia. destruct (strtoul e) as [v r] eqn:U. destruct r; [|lia]. destruct (v >=? 65535) eqn:B; [lia|]. subst v. exists e. split; auto. split; [|lia].
    apply strtoul_iff; auto. intros ->. change (zlen (@nil Z)) with 0 in L. lia.
  - intros [(m & I & ->)|(e & -> & U & B)].
    + cbn [iana_svckeys In] in I. repeat (destruct I as [I|I]; [injection I as <- <-; split; [reflexivity|discriminate]|]). destruct I.
    + assert (N : e <> []). { intros ->. destruct U as (w & sg & d & n & E & _ & (ND & _) & _). symmetry in E. apply app_eq_nil in E as [_ E]. apply app_eq_nil in E as [_ E]. auto. }
      apply strtoul_iff in U; auto. rewrite key_generic by (destruct e; [congruence|rewrite zlen_cons; pose proof (zlen_nonneg _ e); lia]). rewrite U. replace (k >=? 65535) with false by lia. split; [auto|lia].
Qed.

(** ** IPv4 *)
Inductive dots : list Z -> bytes -> Prop :=
| dt_one : forall v s, decimal v s -> is_byte v -> dots [v] s
| dt_more : forall v s vs t, decimal v s -> is_byte v -> dots vs t -> dots (v :: vs) (s ++ 46 :: t).
Lemma decimal_snoc : forall v p c, decimal v p -> v <> 0 -> digit c -> decimal (v * 10 + (c - 48)) (p ++ [c]).
Proof.
  intros v p c (F & V & H) N D. split; [apply Forall_app; auto|]. split; [unfold dec_value in *; rewrite fold_left_app, V; reflexivity|]. right. destruct H as [->|(d & r & -> & X)]; [cbn in V; lia|].
  exists d, (r ++ [c]). auto.
Qed.
Lemma pton4_inv : forall s p done cur a, (cur = None /\ p = [] \/ exists v, cur = Some v /\ decimal v p /\ is_byte v) -> pton4_loop s done cur = Some a -> exists vs, dots vs (p ++ s) /\ a = done ++ vs.
Proof.
  induction s as [|c s IH]; intros p done cur a H E; cbn [pton4_loop] in E.
  - destruct H as [(-> & ->)|(v & -> & D & B)]; [discriminate|]. destruct (zlen done =? 3); [|discriminate]. injection E as <-. exists [v]. rewrite app_nil_r. split; [constructor|]; auto.
  - destruct (is_digit c) eqn:D.
    + apply is_digit_spec in D. assert (S : exists v, cur = None /\ p = [] /\ pton4_loop s done (Some v) = Some a /\ v = c - 48 \/ exists u, cur = Some u /\ u <> 0 /\ v = u * 10 + (c - 48) /\ v <= 255 /\ pton4_loop s done (Some v) = Some a).
      { destruct H as [(-> & ->)|(v & -> & _ & B)].
        - destruct (zlen done >=? 4); [discriminate|]. exists (c - 48). left. auto.
        - destruct (v =? 0) eqn:Z0; [discriminate|]. destruct (v * 10 + (c - 48) >? 255) eqn:Bg; [discriminate|]. exists (v * 10 + (c - 48)). right. exists v. repeat split; auto; lia. }
      unfold digit in D. destruct S as (v & [(-> & -> & E' & ->)|(u & -> & NZ & -> & B & E')]).
      * destruct (IH [c] done (Some (c - 48)) a) with (2 := E') as (vs & V & A).
        { right. exists (c - 48). split; auto. split; [|unfold is_byte; lia]. split; [repeat constructor; unfold digit; lia|]. split; [unfold dec_value; cbn; lia|]. destruct (Z.eq_dec c 48) as [->|N]; [left; auto|right; exists c, []; auto]. }
        exists vs. auto.
      * destruct H as [(H & _)|(v & H & Dv & Bv)]; [discriminate|]. injection H as <-. destruct (IH (p ++ [c]) done (Some (u * 10 + (c - 48))) a) with (2 := E') as (vs & V & A).
        { right. exists (u * 10 + (c - 48)). split; auto. split; [apply decimal_snoc; auto|unfold is_byte in *; lia]. }
        rewrite <- app_assoc in V. exists vs. auto.
    + destruct H as [(-> & ->)|(v & -> & Dv & B)]; [discriminate|]. destruct (c =? 46) eqn:C; [|discriminate]. destruct (zlen done >=? 3); [discriminate|].
      destruct (IH [] (done ++ [v]) None a) with (2 := E) as (vs & V & A); [left; auto|]. exists (v :: vs). replace c with 46 by lia. split; [constructor; auto|]. rewrite A, <- app_assoc. reflexivity.
Qed.
Lemma pton4_iff : forall s a, inet_pton4 s = Some a <-> ipv4_text a s /\ bytes_ok a.
Proof.
  intros s a. split; [|intros [H1 H2]; apply inet_pton4_text; auto]. intros E. assert (L : zlen a = 4).
  { clear -E. revert E. unfold inet_pton4. generalize (@nil Z) as done, (@None Z) as cur. induction s as [|c r IH]; intros done cur E; cbn [pton4_loop] in E.
    - destruct cur as [v|]; [|discriminate]. destruct (zlen done =? 3) eqn:L; [|discriminate]. injection E as <-. rewrite zlen_app. change (zlen [v]) with 1. lia.
    - destruct (is_digit c).
      + destruct cur as [v|]; [destruct (v =? 0); [discriminate|]; destruct (_ >? 255); [discriminate|]; eauto|destruct (_ >=? 4); [discriminate|eauto]].
      + destruct cur as [v|]; [|discriminate]. destruct (c =? 46); [|discriminate]. destruct (_ >=? 3); [discriminate|eauto]. }
  destruct (pton4_inv s [] [] None a) as (vs & V & A); [left; auto|exact E|]. cbn [app] in *. subst vs. inversion V as [v0 s0 D0 B0|v0 s0 vs0 t0 D0 B0 V0]; subst; [discriminate|].
  inversion V0 as [v1 s1 D1 B1|v1 s1 vs1 t1 D1 B1 V1]; subst; [discriminate|]. inversion V1 as [v2 s2 D2 B2|v2 s2 vs2 t2 D2 B2 V2]; subst; [discriminate|].
  inversion V2 as [v3 s3 D3 B3|v3 s3 vs3 t3 D3 B3 V3]; subst. 2:{ assert (1 <= zlen vs3) by (destruct V3; rewrite zlen_cons; match goal with |- context [zlen ?l] => pose proof (zlen_nonneg _ l) end; lia). rewrite !zlen_cons in L. lia. }
  split; [|repeat (apply Forall_cons || apply Forall_nil); auto]. exists v0, v1, v2, v3, s0, s1, s2, t2. repeat match goal with |- _ /\ _ => split end; auto.
Qed.

(** ** IPv6 *)
Definition v6_fin (o : option (bytes * option Z * Z * Z)) : option (bytes * option Z) :=
  match o with
  | None => None
  | Some (tmp, cp, nx, val) => if (nx >? 0) && (zlen tmp + 2 >? 16) then None else Some (if nx >? 0 then tmp ++ [val / 256; val mod 256] else tmp, cp)
  end.
Definition v6_end (o : option (bytes * option Z)) : option bytes :=
  match o with
  | None => None
  | Some (tmp, None) => if zlen tmp =? 16 then Some tmp else None
  | Some (tmp, Some k) => if zlen tmp =? 16 then None else Some (firstn (Z.to_nat k) tmp ++ repeat 0 (Z.to_nat (16 - zlen tmp)) ++ skipn (Z.to_nat k) tmp)
  end.
Lemma pton6_fin : forall s, inet_pton6 s =
  match (match s with [] => None | c :: r => if c =? 58 then match r with d :: _ => if d =? 58 then Some r else None | [] => None end else Some s end) with
  | None => None | Some s => v6_end (v6_fin (pton6_loop s [] None s 0 0)) end.
Proof.
  intros s. unfold inet_pton6. match goal with |- match ?x with _ => _ end = _ => destruct x as [u|]; [|reflexivity] end. destruct (pton6_loop u [] None u 0 0) as [[[[tmp cp] nx] val]|]; [|reflexivity].
  unfold v6_fin. destruct ((nx >? 0) && (zlen tmp + 2 >? 16)); [reflexivity|]. cbv zeta. destruct cp as [k|]; reflexivity.
Qed.
Definition hv (p : bytes) : Z := fold_left (fun a c => a * 16 + hexval c) p 0.
Lemma hexval_digit : forall c, isxdigit c = true <-> hex_digit c (hexval c).
Proof.
  intros c. unfold isxdigit, hexval. split.
  - destruct ((48 <=? c) && (c <=? 57)) eqn:A; [intros _; apply hd_dec; lia|]. destruct ((65 <=? c) && (c <=? 70)) eqn:B; [intros _; apply hd_upp; lia|].
    destruct ((97 <=? c) && (c <=? 102)) eqn:C; [intros _; apply hd_low; lia|]. intros H; lia.
  - intros H. destruct ((48 <=? c) && (c <=? 57)) eqn:A; [lia|]. destruct ((65 <=? c) && (c <=? 70)) eqn:B; [lia|]. destruct ((97 <=? c) && (c <=? 102)) eqn:C; [lia|]. inversion H; lia.
Qed.
Lemma hex_digit_val : forall c x, hex_digit c x -> isxdigit c = true /\ x = hexval c.
Proof.
  intros c x H. assert (E : x = hexval c).
  { unfold hexval. destruct H as [c H|c H|c H].
    - replace ((48 <=? c) && (c <=? 57)) with true by lia. auto.
    - replace ((48 <=? c) && (c <=? 57)) with false by lia. replace ((65 <=? c) && (c <=? 70)) with false by lia. replace ((97 <=? c) && (c <=? 102)) with true by lia. auto.
    - replace ((48 <=? c) && (c <=? 57)) with false by lia. replace ((65 <=? c) && (c <=? 70)) with true by lia. auto. }
  split; auto. apply hexval_digit. subst x. auto.
Qed.
Lemma hex_group_iff : forall p w, hex_group p w <-> 1 <= zlen p <= 4 /\ Forall (fun c => isxdigit c = true) p /\ w = hv p.
Proof.
  intros p w. unfold hex_group, hv. generalize 0. intros z. split.
  - intros (L & vs & F & ->). split; auto. clear L. revert z. induction F as [|c v p vs H F IH]; intros z; [auto|]. apply hex_digit_val in H as (X & ->). cbn [fold_left]. destruct (IH (z * 16 + hexval c)) as (F' & E). split; [constructor; auto|exact E].
  - intros (L & F & ->). split; auto. exists (map hexval p). split; [clear L; induction F; cbn [map]; constructor; auto; apply hexval_digit; auto|]. clear. revert z. induction p as [|c p IH]; intros z; [reflexivity|]. cbn [map fold_left]. apply IH.
Qed.
Lemma hv_snoc : forall p c, hv (p ++ [c]) = hv p * 16 + hexval c. Proof. intros. unfold hv. rewrite fold_left_app. reflexivity. Qed.
(** What the loop does from a state in which the digits [p] of the current group are read. *)
Definition v6_reads (t tmp : bytes) (cp : option Z) (tmp' : bytes) (cp' : option Z) : Prop :=
  (cp' = cp /\ exists y, v6_side true t y /\ tmp' = tmp ++ y) \/
  (cp = None /\ exists g r x y, t = g ++ 58 :: r /\ (g = [] /\ x = [] \/ exists l, g = l ++ [58] /\ v6_part false l x) /\ v6_side true r y /\ tmp' = tmp ++ x ++ y /\ cp' = Some (zlen tmp + zlen x)).
Lemma part_nonempty : forall b t y, v6_part b t y -> t <> [].
Proof.
  intros b t y P. destruct P as [t w (L & _)|t w s o (L & _) _|t a _ T _]; [destruct t; [cbn in L; lia|discriminate]|destruct t; discriminate|].
  destruct T as (a0 & a1 & a2 & a3 & s0 & s1 & s2 & s3 & _ & _ & _ & _ & _ & ->). destruct s0; discriminate.
Qed.
Lemma pton6_inv : forall s p tmp cp tmp' cp', Forall (fun c => isxdigit c = true) p -> zlen p <= 4 ->
  v6_fin (pton6_loop s tmp cp (p ++ s) (zlen p) (hv p)) = Some (tmp', cp') -> v6_reads (p ++ s) tmp cp tmp' cp'.
Proof.
  induction s as [|c s IH]; intros p tmp cp tmp' cp' F L E; cbn [pton6_loop] in E.
  - unfold v6_fin in E. destruct ((zlen p >? 0) && (zlen tmp + 2 >? 16)); [discriminate|]. injection E as <- <-. left. split; auto. rewrite app_nil_r. destruct (zlen p >? 0) eqn:G.
    + exists [hv p / 256; hv p mod 256]. split; auto. right. apply vp_one. apply hex_group_iff. repeat split; auto; lia.
    + exists []. destruct p; [|rewrite zlen_cons in G; pose proof (zlen_nonneg _ p); lia]. split; [left; auto|rewrite app_nil_r; auto].
  - destruct (isxdigit c) eqn:X.
    + destruct (zlen p =? 4) eqn:G; [discriminate|]. replace (p ++ c :: s) with ((p ++ [c]) ++ s) in * by (rewrite <- app_assoc; reflexivity). apply IH.
      * apply Forall_app; auto.
      * rewrite zlen_app. change (zlen [c]) with 1. lia.
      * rewrite zlen_app, hv_snoc. change (zlen [c]) with 1. exact E.
    + destruct (c =? 58) eqn:C.
      * assert (c = 58) by lia. subst c. destruct (zlen p =? 0) eqn:P0.
        { destruct p; [|rewrite zlen_cons in P0; pose proof (zlen_nonneg _ p); lia]. destruct cp as [k|]; [discriminate|].
          assert (R : v6_reads s tmp (Some (zlen tmp)) tmp' cp') by (apply (IH []); [constructor|cbn; lia|exact E]).
          destruct R as [(-> & y & Y & ->)|(R & _)]; [|discriminate]. right. split; auto. exists [], s, [], y. repeat split; auto. cbn [zlen]. change (zlen (@nil Z)) with 0. f_equal. lia. }
        destruct s as [|d s]; [discriminate|]. destruct (zlen tmp + 2 >? 16); [discriminate|]. pose proof (zlen_nonneg _ p).
        assert (R : v6_reads (d :: s) (tmp ++ [hv p / 256; hv p mod 256]) cp tmp' cp') by (apply (IH []); [constructor|cbn; lia|exact E]).
        assert (G : hex_group p (hv p)) by (apply hex_group_iff; repeat split; auto; lia).
        destruct R as [(-> & y & Y & ->)|(-> & g & r & x & y & T & GX & Y & -> & ->)].
        { left. split; auto. destruct Y as [(Y & _)|Y]; [discriminate|]. exists ([hv p / 256; hv p mod 256] ++ y). split; [right; apply vp_more; auto|rewrite <- app_assoc; auto]. }
        { right. split; auto. exists (p ++ 58 :: g), r, ([hv p / 256; hv p mod 256] ++ x), y. split; [rewrite T, <- app_assoc; reflexivity|]. split.
          - right. destruct GX as [(-> & ->)|(l & -> & PL)]; [exists p; split; auto; rewrite app_nil_r; apply vp_one; auto|]. exists (p ++ 58 :: l). split; [rewrite <- app_assoc; reflexivity|]. apply vp_more; auto.
          - split; auto. split; [rewrite <- !app_assoc; auto|]. f_equal. rewrite !zlen_app. lia. }
      * destruct ((c =? 46) && (zlen tmp + 4 <=? 16)); [|discriminate]. destruct (inet_pton4 (p ++ c :: s)) as [a|] eqn:A; [|discriminate]. cbn [v6_fin] in E. change (0 >? 0) with false in E. cbn [andb] in E. injection E as <- <-.
        apply pton4_iff in A as (T & B). left. split; auto. exists a. split; auto. right. apply vp_ipv4; auto.
Qed.
Lemma part_mono : forall l x, v6_part false l x -> forall b, v6_part b l x.
Proof. induction 1; intros b; [apply vp_one|apply vp_more|discriminate]; auto. Qed.
Lemma group_loop : forall p w r tmp cp ct, hex_group p w -> pton6_loop (p ++ r) tmp cp ct 0 0 = pton6_loop r tmp cp ct (zlen p) w.
Proof. intros p w r tmp cp ct G. apply hex_group_iff in G as (L & F & ->). rewrite pton6_hex by (auto; lia). reflexivity. Qed.
Lemma part_zlen : forall b t y, v6_part b t y -> 2 <= zlen y.
Proof.
  induction 1 as [t w G|t w s o G P IH|t a _ T _]; [change (zlen [w / 256; w mod 256]) with 2; lia|rewrite zlen_app; change (zlen [w / 256; w mod 256]) with 2; lia|]. destruct T as (a0 & a1 & a2 & a3 & _ & _ & _ & _ & -> & _). cbn. lia.
Qed.
Lemma ipv4_loop : forall t a tmp cp, ipv4_text a t -> bytes_ok a -> zlen tmp + 4 <= 16 -> pton6_loop t tmp cp t 0 0 = Some (tmp ++ a, cp, 0, 0).
Proof.
  intros t a tmp cp T B L. assert (P := inet_pton4_text a t T B). destruct T as (a0 & a1 & a2 & a3 & s0 & s1 & s2 & s3 & -> & D0 & D1 & D2 & D3 & ->).
  set (t := s0 ++ 46 :: s1 ++ 46 :: s2 ++ 46 :: s3) in *. inversion B as [|? ? B0 B']; subst. unfold t at 1. clearbody t. pose proof D0 as (F & V & H). assert (Lz : zlen s0 <= 3).
  { eapply decimal_zlen; [|exact D0|]; unfold is_byte in B0; lia. }
  rewrite pton6_hex.
  - cbn [pton6_loop]. change (isxdigit 46) with false. change (46 =? 58) with false. change (46 =? 46) with true. cbv iota. replace (zlen tmp + 4 <=? 16) with true by lia. cbn [andb]. rewrite P. reflexivity.
  - eapply Forall_impl; [|exact F]. intros c Dc. unfold digit in Dc. unfold isxdigit, hexval. replace ((48 <=? c) && (c <=? 57)) with true by lia. lia.
  - lia.
  - lia.
Qed.
Lemma part_fin : forall t y, v6_part true t y -> forall tmp cp, zlen tmp + zlen y <= 16 -> v6_fin (pton6_loop t tmp cp t 0 0) = Some (tmp ++ y, cp).
Proof.
  intros t y P. remember true as b eqn:Eb. induction P as [t w G|t w s o G P IH|t a V T B]; intros tmp cp L; subst.
  - rewrite <- (app_nil_r t) at 1. rewrite (group_loop t w) by auto. cbn [pton6_loop v6_fin]. destruct G as (Lt & _). change (zlen [w / 256; w mod 256]) with 2 in L. replace (zlen t >? 0) with true by lia. replace (zlen tmp + 2 >? 16) with false by lia. reflexivity.
  - pose proof (part_nonempty _ _ _ P) as NE. rewrite (group_loop t w) by auto. rewrite zlen_app in L. change (zlen [w / 256; w mod 256]) with 2 in L. pose proof (part_zlen _ _ _ P). destruct G as (Lt & _).
    rewrite pton6_colon_word by (auto; lia). rewrite IH; auto; [rewrite <- app_assoc; auto|]. rewrite zlen_app. change (zlen [w / 256; w mod 256]) with 2. lia.
  - assert (zlen a = 4) by (destruct T as (a0 & a1 & a2 & a3 & _ & _ & _ & _ & -> & _); reflexivity). rewrite (ipv4_loop t a) by (auto; lia). reflexivity.
Qed.
Lemma part_gap : forall l x, v6_part false l x -> forall tmp r ct, zlen tmp + zlen x <= 16 -> pton6_loop (l ++ 58 :: 58 :: r) tmp None ct 0 0 = pton6_loop r (tmp ++ x) (Some (zlen tmp + zlen x)) r 0 0.
Proof.
  intros l x P. remember false as b eqn:Eb. induction P as [t w G|t w s o G P IH|t a V T B]; intros tmp r ct L; subst; [| |discriminate].
  - rewrite (group_loop t w) by auto. change (zlen [w / 256; w mod 256]) with 2 in *. destruct G as (Lt & _). rewrite pton6_colon_word by (try discriminate; lia). rewrite pton6_colon_gap. rewrite zlen_app. reflexivity.
  - rewrite <- app_assoc. cbn [app]. rewrite (group_loop t w) by auto. rewrite zlen_app in L. change (zlen [w / 256; w mod 256]) with 2 in L. destruct G as (Lt & _). pose proof (part_zlen _ _ _ P).
    rewrite pton6_colon_word by (try (destruct s; discriminate); lia). rewrite IH by (rewrite zlen_app; change (zlen [w / 256; w mod 256]) with 2; lia). rewrite <- app_assoc, zlen_app. change (zlen [w / 256; w mod 256]) with 2. cbn [app]. rewrite !zlen_cons. replace (zlen tmp + 2 + zlen o) with (zlen tmp + (zlen o + 1 + 1)) by lia. reflexivity.
Qed.
Lemma part_head : forall b t y, v6_part b t y -> exists c r, t = c :: r /\ c <> 58.
Proof.
  intros b t y P. assert (GH : forall p w, hex_group p w -> exists c r, p = c :: r /\ c <> 58).
  { intros p w G. apply hex_group_iff in G as (L & F & _). destruct p as [|c p]; [cbn in L; lia|]. exists c, p. split; auto. intros ->. inversion F; discriminate. }
  destruct P as [t w G|t w s o G _|t a _ T B]; [eauto|destruct (GH _ _ G) as (c & r & -> & N); exists c, (r ++ 58 :: s); auto|].
  destruct T as (a0 & a1 & a2 & a3 & s0 & s1 & s2 & s3 & _ & (F & _ & H) & _ & _ & _ & ->). destruct s0 as [|c s0]; [destruct H as [H|(c & r & H & _)]; discriminate|]. inversion F as [|? ? D _]; subst. exists c, (s0 ++ 46 :: s1 ++ 46 :: s2 ++ 46 :: s3). split; auto. unfold digit in D. lia.
Qed.
Lemma side_fin : forall r y tmp k, v6_side true r y -> zlen tmp + zlen y <= 16 -> v6_fin (pton6_loop r tmp (Some k) r 0 0) = Some (tmp ++ y, Some k).
Proof. intros r y tmp k [(-> & ->)|P] L; [rewrite app_nil_r; reflexivity|apply part_fin; auto]. Qed.
Lemma end_gap : forall x y, zlen x + zlen y <= 14 -> v6_end (Some (x ++ y, Some (zlen x))) = Some (x ++ repeat 0 (Z.to_nat (16 - zlen x - zlen y)) ++ y).
Proof.
  intros x y L. cbn [v6_end]. rewrite zlen_app. replace (zlen x + zlen y =? 16) with false by lia. replace (Z.to_nat (zlen x)) with (length x) by (unfold zlen; lia). rewrite firstn_app, Nat.sub_diag, firstn_all, app_nil_r, skipn_app, skipn_all, Nat.sub_diag. cbn [app skipn].
  replace (16 - (zlen x + zlen y)) with (16 - zlen x - zlen y) by lia. reflexivity.
Qed.
Lemma pton6_iff : forall s a, inet_pton6 s = Some a <-> v6_text s a.
Proof.
  intros s a. rewrite pton6_fin. split.
  - intros E. assert (S : exists u, (s = u \/ s = 58 :: u) /\ (s = u -> exists c r, u = c :: r /\ c <> 58) /\ (s = 58 :: u -> exists r, u = 58 :: r) /\ v6_end (v6_fin (pton6_loop u [] None u 0 0)) = Some a).
    { destruct s as [|c r]; [discriminate|]. destruct (c =? 58) eqn:C.
      - destruct r as [|d r]; [discriminate|]. destruct (d =? 58) eqn:D; [|discriminate]. exists (d :: r). split; [right; f_equal; lia|]. split; [intros H; apply (f_equal (@length Z)) in H; cbn [length] in H; lia|]. split; [intros _; exists r; f_equal; lia|exact E].
      - exists (c :: r). split; [auto|]. split; [intros _; exists c, r; split; auto; lia|]. split; [intros H; apply (f_equal (@length Z)) in H; cbn [length] in H; lia|exact E]. }
    clear E. destruct S as (u & SU & N1 & N2 & E). destruct (v6_fin (pton6_loop u [] None u 0 0)) as [[tmp cp]|] eqn:Fi; [|discriminate].
    assert (R : v6_reads u [] None tmp cp) by (apply (pton6_inv u []); [constructor|cbn; lia|exact Fi]).
    destruct R as [(-> & y & Y & ->)|(_ & g & r & x & y & T & GX & Y & -> & ->)].
    + cbn [app v6_end] in E. destruct (zlen y =? 16) eqn:L; [|discriminate]. injection E as <-. destruct Y as [(-> & ->)|P]; [discriminate|]. destruct SU as [->|SU]; [apply v6_whole; auto; lia|].
      destruct (N2 SU) as (r & ->). apply part_head in P as (c & q & Q & N). congruence.
    + cbn [app] in E. change (zlen (@nil Z)) with 0 in E. rewrite Z.add_0_l in E.
      assert (B : zlen x + zlen y <= 14 /\ a = x ++ repeat 0 (Z.to_nat (16 - zlen x - zlen y)) ++ y).
      { assert (L : zlen x + zlen y <= 14).
        { pose proof E as E'. cbn [v6_end] in E'. rewrite zlen_app in E'. destruct (zlen x + zlen y =? 16) eqn:Q; [discriminate|].
          assert (EV : forall b t o, v6_part b t o -> exists k, zlen o = 2 * k) by (clear; induction 1 as [t w G|t w s o G P (k & IH)|t a _ T _]; [exists 1; reflexivity|exists (k + 1); rewrite zlen_app; change (zlen [w / 256; w mod 256]) with 2; lia|exists 2; destruct T as (a0 & a1 & a2 & a3 & _ & _ & _ & _ & -> & _); reflexivity]).
          assert (EX : exists k, zlen x = 2 * k) by (destruct GX as [(_ & ->)|(l & _ & P)]; [exists 0; reflexivity|eauto]).
          assert (EY : exists k, zlen y = 2 * k) by (destruct Y as [(_ & ->)|P]; [exists 0; reflexivity|eauto]).
          assert (Bd : zlen (x ++ y) <= 16).
          { pose proof Fi as Fi'. unfold v6_fin in Fi'. destruct (pton6_loop u [] None u 0 0) as [[[[tm c] nx] val]|] eqn:PL; [|discriminate].
            destruct (pton6_loop_len _ _ _ _ _ _ _ _ _ _ PL) as (Lm & _); [cbn; lia|intros; discriminate|]. destruct ((nx >? 0) && (zlen tm + 2 >? 16)) eqn:G; [discriminate|]. injection Fi' as Fi' _. cbn [app] in Fi'. rewrite <- Fi'. destruct (nx >? 0); [rewrite zlen_app; change (zlen [val / 256; val mod 256]) with 2; cbn [andb] in G; lia|lia]. }
          rewrite zlen_app in Bd. destruct EX as (k1 & K1), EY as (k2 & K2). lia. }
        split; auto. rewrite end_gap in E by auto. congruence. }
      destruct B as (L & ->). destruct SU as [SU|SU].
      * subst s. destruct (N1 eq_refl) as (c & q & Q & N). destruct GX as [(-> & _)|(l & -> & P)]; [cbn [app] in T; congruence|]. rewrite T, <- app_assoc. cbn [app]. apply v6_short; auto. right. auto.
      * destruct (N2 SU) as (q & Q). rewrite SU, T. destruct GX as [(-> & ->)|(l & -> & P)]; [apply (v6_short [] r [] y); auto; left; auto|].
        exfalso. apply part_head in P as (c & z & -> & N). rewrite T in Q. cbn [app] in Q. congruence.
  - intros T. destruct T as [t a P L|l r x y X Y L].
    + destruct (part_head _ _ _ P) as (c & q & -> & N). replace (c =? 58) with false by lia. rewrite (part_fin _ _ P) by (change (zlen (@nil Z)) with 0; lia). cbn [app v6_end]. rewrite (proj2 (Z.eqb_eq _ _) L). reflexivity.
    + destruct X as [(-> & ->)|P].
      * cbn [app]. change (58 =? 58) with true. cbv iota. rewrite pton6_colon_gap. rewrite (side_fin r y) by (auto; change (zlen (@nil Z)) with 0 in *; lia). apply (end_gap [] y L).
      * destruct (part_head _ _ _ P) as (c & q & -> & N). cbn [app]. replace (c =? 58) with false by lia. change (c :: q ++ 58 :: 58 :: r) with ((c :: q) ++ 58 :: 58 :: r). pose proof (zlen_nonneg _ y).
        rewrite (part_gap _ _ P) by (change (zlen (@nil Z)) with 0; lia). cbn [app]. change (zlen (@nil Z)) with 0. rewrite Z.add_0_l. rewrite (side_fin r y) by (auto; lia). apply end_gap. auto.
Qed.
