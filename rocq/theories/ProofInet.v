(** ProofInet.v: IPv4 and IPv6 text. *)
From Verif Require Import Base Lib ModelName SpecName Libc ModelFormat SpecFormat ProofFormat.

(** ** Bit operations as arithmetic *)
Lemma lor_add : forall x y k, 0 <= k -> 0 <= y < 2 ^ k -> Z.lor (x * 2 ^ k) y = x * 2 ^ k + y.
Proof.
  intros x y k Hk Hy.
  assert (L : Z.land (x * 2 ^ k) y = 0).
  { rewrite <- Z.shiftl_mul_pow2 by lia. apply Z.bits_inj'. intros n Hn. rewrite Z.land_spec, Z.bits_0.
    destruct (Z_lt_dec n k).
    - rewrite Z.shiftl_spec_low by lia. reflexivity.
    - replace (Z.testbit y n) with false; [apply andb_false_r|]. symmetry.
      destruct (Z.eq_dec y 0); [subst; apply Z.bits_0|]. apply Z.bits_above_log2; [lia|].
      apply Z.log2_lt_pow2; [lia|]. eapply Z.lt_le_trans; [apply Hy|]. apply Z.pow_le_mono_r; lia. }
  rewrite <- Z.lxor_lor by auto. rewrite <- Z.add_nocarry_lxor by auto. reflexivity.
Qed.

Lemma land_mod : forall x k, 0 <= k -> Z.land x (2 ^ k - 1) = x mod 2 ^ k.
Proof. intros. rewrite <- Z.land_ones by lia. f_equal. rewrite Z.ones_equiv. lia. Qed.

(** ** IPv4 *)
Lemma inet4_digits : forall b, is_byte b ->
  (if b >=? 200 then [50] else if b >=? 100 then [49] else []) ++
  (let ipb := if b >=? 200 then b - 200 else if b >=? 100 then b - 100 else b in
   (if b >=? 10 then [48 + ipb / 10] else []) ++ [48 + ipb mod 10]) = fmt_u b /\ zlen (fmt_u b) <= 3.
Proof.
  intros b H.
  pose proof (forall_bytes (fun b => (if list_eq_dec Z.eq_dec ((if b >=? 200 then [50] else if b >=? 100 then [49] else []) ++
    (let ipb := if b >=? 200 then b - 200 else if b >=? 100 then b - 100 else b in
     (if b >=? 10 then [48 + ipb / 10] else []) ++ [48 + ipb mod 10])) (fmt_u b) then true else false) && (zlen (fmt_u b) <=? 3))) as G.
  specialize (G ltac:(vm_compute; reflexivity) b H). cbv beta in G. apply andb_prop in G as [G1 G2].
  destruct (list_eq_dec Z.eq_dec _ _) as [E|] in G1; [|discriminate]. split; [exact E|lia].
Qed.

Lemma inet4_step : forall b r i cap dst, is_byte b -> zlen dst + 4 <= cap ->
  inet4_loop (b :: r) i cap dst = inet4_loop r (i + 1) cap (dst ++ fmt_u b ++ (if i <? 3 then [46] else [])).
Proof.
  intros b r i cap dst H C. cbn [inet4_loop]. destruct (inet4_digits b H) as [E L]. cbv zeta in E.
  set (ipb := if b >=? 200 then b - 200 else if b >=? 100 then b - 100 else b) in *.
  set (x := if b >=? 200 then [50] else if b >=? 100 then [49] else []) in *.
  assert (P : (if b >=? 200 then push cap dst [50] else if b >=? 100 then push cap dst [49] else Ok dst) = Ok (dst ++ x)).
  { subst x. destruct (b >=? 200); [apply push_ok; change (zlen [50]) with 1; lia|].
    destruct (b >=? 100); [apply push_ok; change (zlen [49]) with 1; lia|]. rewrite app_nil_r. reflexivity. }
  rewrite P. cbn [bind].
  assert (Lx : zlen x <= 1) by (subst x; destruct (b >=? 200); [|destruct (b >=? 100)]; cbn; lia).
  set (y := if b >=? 10 then [48 + ipb / 10] else []) in *.
  assert (Ly : zlen y <= 1) by (subst y; destruct (b >=? 10); cbn; lia).
  assert (Q : (if b >=? 10 then push cap (dst ++ x) [48 + ipb / 10] else Ok (dst ++ x)) = Ok ((dst ++ x) ++ y)).
  { subst y. destruct (b >=? 10); [apply push_ok; zlia|]. rewrite app_nil_r. reflexivity. }
  rewrite Q. cbn [bind]. rewrite push_ok by zlia. cbn [bind].
  assert (R : (if i <? 3 then push cap (((dst ++ x) ++ y) ++ [48 + ipb mod 10]) [46] else Ok (((dst ++ x) ++ y) ++ [48 + ipb mod 10]))
    = Ok (dst ++ fmt_u b ++ (if i <? 3 then [46] else []))).
  { rewrite <- E. destruct (i <? 3); [rewrite push_ok by zlia|rewrite app_nil_r]; f_equal; rewrite <- ?app_assoc; reflexivity. }
  rewrite R. reflexivity.
Qed.

Definition text4 (a b c d : Z) : bytes := fmt_u a ++ 46 :: fmt_u b ++ 46 :: fmt_u c ++ 46 :: fmt_u d.

Lemma fmt_byte : forall b, is_byte b -> decimal b (fmt_u b).
Proof. intros b H. apply fmt_u_decimal. unfold is_byte in H. lia. Qed.

Lemma inet4_ntop_spec : forall a b c d r size, is_byte a -> is_byte b -> is_byte c -> is_byte d -> 16 <= size ->
  inet4_ntop (a :: b :: c :: d :: r) size = Ok (Some (text4 a b c d)) /\ zlen (text4 a b c d) <= 15.
Proof.
  intros a b c d r size Ha Hb Hc Hd Hs. unfold inet4_ntop. replace (size <? 16) with false by lia.
  change (a :: b :: c :: d :: r) with ([a; b; c; d] ++ r). rewrite take_rd_app by reflexivity. cbn [bind].
  destruct (inet4_digits a Ha) as [_ La], (inet4_digits b Hb) as [_ Lb], (inet4_digits c Hc) as [_ Lc], (inet4_digits d Hd) as [_ Ld].
  rewrite inet4_step by (auto; zlia). change (0 <? 3) with true. rewrite inet4_step by (auto; zlia). change (0 + 1 <? 3) with true.
  rewrite inet4_step by (auto; zlia). change (0 + 1 + 1 <? 3) with true. rewrite inet4_step by (auto; zlia).
  change (0 + 1 + 1 + 1 <? 3) with false. cbn [inet4_loop bind app].
  assert (E : (((fmt_u a ++ [46]) ++ fmt_u b ++ [46]) ++ fmt_u c ++ [46]) ++ fmt_u d ++ [] = text4 a b c d).
  { unfold text4. rewrite app_nil_r. repeat (rewrite <- app_assoc; cbn [app]). reflexivity. }
  rewrite E. assert (zlen (text4 a b c d) <= 15) by (unfold text4; zlia). rewrite push_ok by zlia. auto.
Qed.

Lemma text4_spec : forall a b c d, is_byte a -> is_byte b -> is_byte c -> is_byte d -> ipv4_text [a; b; c; d] (text4 a b c d).
Proof.
  intros. exists a, b, c, d, (fmt_u a), (fmt_u b), (fmt_u c), (fmt_u d).
  repeat match goal with |- _ /\ _ => split end; auto using fmt_byte.
Qed.

(** *** inet_pton *)
Lemma pton4_digits : forall s v done r, Forall digit s -> v <> 0 -> 0 <= v -> no_digit_head r -> v * 10 ^ zlen s + dec_value s <= 255 ->
  pton4_loop (s ++ r) done (Some v) = pton4_loop r done (Some (v * 10 ^ zlen s + dec_value s)).
Proof.
  induction s as [|c s IH]; intros v done r F Hv Hv' N B.
  - change (zlen (@nil Z)) with 0. unfold dec_value. cbn [app fold_left]. rewrite Z.pow_0_r. do 2 f_equal. lia.
  - inversion F; subst. cbn [app pton4_loop]. replace (is_digit c) with true by (symmetry; apply is_digit_spec; auto).
    replace (v =? 0) with false by lia.
    assert (E : v * 10 ^ zlen (c :: s) + dec_value (c :: s) = (v * 10 + (c - 48)) * 10 ^ zlen s + dec_value s).
    { unfold dec_value at 1. cbn [fold_left]. rewrite dec_fold, zlen_cons, Z.pow_add_r by (pose proof (zlen_nonneg _ s); lia). lia. }
    rewrite E in *. unfold digit in *.
    pose proof (dec_value_nonneg s ltac:(auto)). pose proof (Z.pow_pos_nonneg 10 (zlen s) ltac:(lia) (zlen_nonneg _ s)).
    replace (v * 10 + (c - 48) >? 255) with false by nia. apply IH; auto; lia.
Qed.

Lemma pton4_octet : forall v s done r, decimal v s -> v <= 255 -> zlen done <= 3 -> no_digit_head r ->
  pton4_loop (s ++ r) done None = pton4_loop r done (Some v).
Proof.
  intros v s done r D B L N. pose proof D as (F & V & Hd). destruct s as [|c s]; [exfalso; eapply decimal_nonempty; eauto|].
  inversion F; subst. cbn [app pton4_loop]. replace (is_digit c) with true by (symmetry; apply is_digit_spec; auto).
  replace (zlen done >=? 4) with false by lia.
  assert (E : dec_value (c :: s) = (c - 48) * 10 ^ zlen s + dec_value s).
  { unfold dec_value at 1. cbn [fold_left]. rewrite dec_fold. lia. }
  destruct Hd as [[= -> ->] | (c' & r' & [= <- <-] & Hc)].
  - reflexivity.
  - rewrite E in *. unfold digit in *. apply pton4_digits; auto; lia.
Qed.

Lemma inet_pton4_text : forall a s, ipv4_text a s -> bytes_ok a -> inet_pton4 s = Some a.
Proof.
  intros a s (a0 & a1 & a2 & a3 & s0 & s1 & s2 & s3 & -> & D0 & D1 & D2 & D3 & ->) H.
  repeat (apply bytes_ok_cons in H as [? H]). unfold is_byte in *.
  assert (N : forall l, no_digit_head (46 :: l)) by (intros; simpl; unfold digit; lia).
  unfold inet_pton4. 
  rewrite (pton4_octet _ _ _ _ D0) by (auto; try (cbn; lia); lia). cbn [pton4_loop]. change (is_digit 46) with false. change (46 =? 46) with true. change (zlen (@nil Z) >=? 3) with false. cbn [app].
  rewrite (pton4_octet _ _ _ _ D1) by (auto; try (cbn; lia); lia). cbn [pton4_loop]. change (is_digit 46) with false. change (46 =? 46) with true. change (zlen [a0] >=? 3) with false. cbn [app].
  rewrite (pton4_octet _ _ _ _ D2) by (auto; try (cbn; lia); lia). cbn [pton4_loop]. change (is_digit 46) with false. change (46 =? 46) with true. change (zlen [a0; a1] >=? 3) with false. cbn [app].
  rewrite <- (app_nil_r s3). rewrite (pton4_octet _ _ _ _ D3) by (try (cbn; lia); simpl; auto; lia). cbn [pton4_loop]. reflexivity.
Qed.

(** ** IPv6: one group *)
Definition hexw (w : Z) : bytes :=
  let h := hexd false in
  if w <? 16 then [h w]
  else if w <? 256 then [h (w / 16); h (w mod 16)]
  else if w <? 4096 then [h (w / 256); h (w / 16 mod 16); h (w mod 16)]
  else [h (w / 4096); h (w / 256 mod 16); h (w / 16 mod 16); h (w mod 16)].

Lemma rd_hex_lower : forall v, 0 <= v < 16 -> rd hex_lower v = Ok (hexd false v).
Proof.
  intros v H. assert (G : forallb (fun v => match rd hex_lower v with Ok h => h =? hexd false v | _ => false end) (map Z.of_nat (seq 0 16)) = true)
    by (vm_compute; reflexivity).
  rewrite forallb_forall in G. specialize (G v). cbv beta in G.
  destruct (rd hex_lower v); try (exfalso; assert (false = true) by (apply G; apply in_map_iff; exists (Z.to_nat v); split; [lia|apply in_seq; lia]); discriminate).
  f_equal. apply Z.eqb_eq, G. apply in_map_iff. exists (Z.to_nat v). split; [lia|apply in_seq; lia].
Qed.

Lemma land15 : forall x, Z.land x 15 = x mod 16.
Proof. intros. exact (land_mod x 4 ltac:(lia)). Qed.
Lemma shiftr4 : forall x, Z.shiftr x 4 = x / 16.
Proof. intros. rewrite Z.shiftr_div_pow2 by lia. reflexivity. Qed.

Lemma hex16_step : forall k num ndx n cells, 0 <= num ->
  hex16_loop (S k) num ndx n cells =
  (cells <- set_at cells ndx (hexd false (num mod 16)) ;;
   if num <? 16 then Ok (cells, n + 1) else hex16_loop k (num / 16) (ndx - 1) (n + 1) cells).
Proof.
  intros k num ndx n cells H. cbn [hex16_loop]. rewrite land15, shiftr4, rd_hex_lower by (apply Z.mod_pos_bound; lia). cbn [bind].
  destruct (set_at cells ndx _); cbn [bind]; auto.
  replace (num / 16 =? 0) with (num <? 16); auto. apply eq_true_iff_eq. rewrite Z.eqb_eq. split; intros.
  - apply Z.div_small. lia.
  - pose proof (Z.div_mod num 16). pose proof (Z.mod_pos_bound num 16). lia.
Qed.

Lemma print_hex_spec : forall w, 0 <= w < 65536 -> print_hex_uint16 w = Ok (hexw w).
Proof.
  intros w H. unfold print_hex_uint16, hexw.
  assert (D1 : 0 <= w / 16) by (apply Z.div_pos; lia).
  assert (D2 : 0 <= w / 16 / 16) by (apply Z.div_pos; lia).
  assert (D3 : 0 <= w / 16 / 16 / 16) by (apply Z.div_pos; lia).
  assert (E2 : w / 16 / 16 = w / 256) by (rewrite Z.div_div by lia; reflexivity).
  assert (E3 : w / 16 / 16 / 16 = w / 4096) by (rewrite !Z.div_div by lia; reflexivity).
  pose proof (Z.div_mod w 16). pose proof (Z.mod_pos_bound w 16).
  pose proof (Z.div_mod w 256). pose proof (Z.mod_pos_bound w 256).
  pose proof (Z.div_mod w 4096). pose proof (Z.mod_pos_bound w 4096).
  destruct (w >=? 4096) eqn:A.
  - replace (w <? 16) with false by lia. replace (w <? 256) with false by lia. replace (w <? 4096) with false by lia.
    rewrite hex16_step by lia. change (set_at [0; 0; 0; 0] 3 (hexd false (w mod 16))) with (@Ok bytes [0; 0; 0; hexd false (w mod 16)]). cbn [bind].
    replace (w <? 16) with false by lia. rewrite hex16_step by lia.
    change (set_at [0; 0; 0; hexd false (w mod 16)] (3 - 1) (hexd false (w / 16 mod 16))) with (@Ok bytes [0; 0; hexd false (w / 16 mod 16); hexd false (w mod 16)]). cbn [bind].
    replace (w / 16 <? 16) with false by lia. rewrite hex16_step by lia.
    change (set_at [0; 0; hexd false (w / 16 mod 16); hexd false (w mod 16)] (3 - 1 - 1) (hexd false (w / 16 / 16 mod 16)))
      with (@Ok bytes [0; hexd false (w / 16 / 16 mod 16); hexd false (w / 16 mod 16); hexd false (w mod 16)]). cbn [bind].
    replace (w / 16 / 16 <? 16) with false by lia. rewrite hex16_step by lia.
    change (set_at [0; hexd false (w / 16 / 16 mod 16); hexd false (w / 16 mod 16); hexd false (w mod 16)] (3 - 1 - 1 - 1) (hexd false (w / 16 / 16 / 16 mod 16)))
      with (@Ok bytes [hexd false (w / 16 / 16 / 16 mod 16); hexd false (w / 16 / 16 mod 16); hexd false (w / 16 mod 16); hexd false (w mod 16)]). cbn [bind].
    replace (w / 16 / 16 / 16 <? 16) with true by lia. cbn [bind]. rewrite E3, E2, (Z.mod_small (w / 4096)) by lia. reflexivity.
  - destruct (w >=? 256) eqn:B.
    + replace (w <? 16) with false by lia. replace (w <? 256) with false by lia. replace (w <? 4096) with true by lia.
      rewrite hex16_step by lia. change (set_at [0; 0; 0; 0] 2 (hexd false (w mod 16))) with (@Ok bytes [0; 0; hexd false (w mod 16); 0]). cbn [bind].
      replace (w <? 16) with false by lia. rewrite hex16_step by lia.
      change (set_at [0; 0; hexd false (w mod 16); 0] (2 - 1) (hexd false (w / 16 mod 16))) with (@Ok bytes [0; hexd false (w / 16 mod 16); hexd false (w mod 16); 0]). cbn [bind].
      replace (w / 16 <? 16) with false by lia. rewrite hex16_step by lia.
      change (set_at [0; hexd false (w / 16 mod 16); hexd false (w mod 16); 0] (2 - 1 - 1) (hexd false (w / 16 / 16 mod 16)))
        with (@Ok bytes [hexd false (w / 16 / 16 mod 16); hexd false (w / 16 mod 16); hexd false (w mod 16); 0]). cbn [bind].
      replace (w / 16 / 16 <? 16) with true by lia. cbn [bind]. rewrite E2, (Z.mod_small (w / 256)) by lia. reflexivity.
    + destruct (w >=? 16) eqn:C.
      * replace (w <? 16) with false by lia. replace (w <? 256) with true by lia.
        rewrite hex16_step by lia. change (set_at [0; 0; 0; 0] 1 (hexd false (w mod 16))) with (@Ok bytes [0; hexd false (w mod 16); 0; 0]). cbn [bind].
        replace (w <? 16) with false by lia. rewrite hex16_step by lia.
        change (set_at [0; hexd false (w mod 16); 0; 0] (1 - 1) (hexd false (w / 16 mod 16))) with (@Ok bytes [hexd false (w / 16 mod 16); hexd false (w mod 16); 0; 0]). cbn [bind].
        replace (w / 16 <? 16) with true by lia. cbn [bind]. rewrite (Z.mod_small (w / 16)) by lia. reflexivity.
      * replace (w <? 16) with true by lia. rewrite hex16_step by lia.
        change (set_at [0; 0; 0; 0] 0 (hexd false (w mod 16))) with (@Ok bytes [hexd false (w mod 16); 0; 0; 0]). cbn [bind].
        replace (w <? 16) with true by lia. cbn [bind]. rewrite (Z.mod_small w) by lia. reflexivity.
Qed.
