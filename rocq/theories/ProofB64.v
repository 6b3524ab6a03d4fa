(** ProofB64.v: base64 and base32hex. *)
From Verif Require Import Base Lib ModelName SpecName Libc ModelFormat SpecFormat ProofFormat ProofInet.

Ltac by_bytes f := apply Z.eqb_eq; match goal with H : is_byte ?x |- _ => revert x H end; apply (forall_bytes f); vm_compute; reflexivity.

(** ** Bit manipulation of one octet *)
Lemma e_a : forall f, is_byte f -> Z.shiftr (Z.land f 252) 2 = f / 4.
Proof. intros f H. by_bytes (fun f => Z.shiftr (Z.land f 252) 2 =? f / 4). Qed.
Lemma e_a' : forall f, is_byte f -> Z.shiftl (Z.land f 3) 4 = f mod 4 * 16.
Proof. intros f H. by_bytes (fun f => Z.shiftl (Z.land f 3) 4 =? f mod 4 * 16). Qed.
Lemma e_b : forall f, is_byte f -> Z.shiftr (Z.land f 240) 4 = f / 16.
Proof. intros f H. by_bytes (fun f => Z.shiftr (Z.land f 240) 4 =? f / 16). Qed.
Lemma e_b' : forall f, is_byte f -> Z.shiftl (Z.land f 15) 2 = f mod 16 * 4.
Proof. intros f H. by_bytes (fun f => Z.shiftl (Z.land f 15) 2 =? f mod 16 * 4). Qed.
Lemma e_c : forall f, is_byte f -> Z.shiftr (Z.land f 192) 6 = f / 64.
Proof. intros f H. by_bytes (fun f => Z.shiftr (Z.land f 192) 6 =? f / 64). Qed.
Lemma e_c' : forall f, is_byte f -> Z.land f 63 = f mod 64.
Proof. intros f H. by_bytes (fun f => Z.land f 63 =? f mod 64). Qed.
Lemma e_d1 : forall f, is_byte f -> Z.shiftr (Z.land f 48) 4 = f / 16 mod 4.
Proof. intros f H. by_bytes (fun f => Z.shiftr (Z.land f 48) 4 =? f / 16 mod 4). Qed.
Lemma e_d2 : forall f, is_byte f -> Z.shiftl (Z.land f 15) 4 = f mod 16 * 16.
Proof. intros f H. by_bytes (fun f => Z.shiftl (Z.land f 15) 4 =? f mod 16 * 16). Qed.
Lemma e_d3 : forall f, is_byte f -> Z.shiftr (Z.land f 60) 2 = f / 4 mod 16.
Proof. intros f H. by_bytes (fun f => Z.shiftr (Z.land f 60) 2 =? f / 4 mod 16). Qed.
Lemma e_d4 : forall f, is_byte f -> Z.shiftl (Z.land f 3) 6 = f mod 4 * 64.
Proof. intros f H. by_bytes (fun f => Z.shiftl (Z.land f 3) 6 =? f mod 4 * 64). Qed.
Lemma e_d5 : forall f, is_byte f -> Z.shiftl (Z.land f 63) 2 = f mod 64 * 4.
Proof. intros f H. by_bytes (fun f => Z.shiftl (Z.land f 63) 2 =? f mod 64 * 4). Qed.

Lemma lor4 : forall x y, 0 <= y < 4 -> Z.lor (x * 4) y = x * 4 + y.
Proof. intros. apply (lor_add x y 2); lia. Qed.
Lemma lor16 : forall x y, 0 <= y < 16 -> Z.lor (x * 16) y = x * 16 + y.
Proof. intros. apply (lor_add x y 4); lia. Qed.
Lemma lor64 : forall x y, 0 <= y < 64 -> Z.lor (x * 64) y = x * 64 + y.
Proof. intros. apply (lor_add x y 6); lia. Qed.

(** Quotients and remainders of an octet. *)
Ltac dm x k := pose proof (Z.div_mod x k ltac:(lia)); pose proof (Z.mod_pos_bound x k ltac:(lia)).

(** ** One character *)
Lemma enc_value : forall v, 0 <= v < 64 -> base64_encode_value v = Ok (b64_char v).
Proof.
  intros v H. assert (G : forallb (fun v => match base64_encode_value v with Ok c => c =? b64_char v | _ => false end) (map Z.of_nat (seq 0 64)) = true)
    by (vm_compute; reflexivity).
  rewrite forallb_forall in G. specialize (G v). destruct (base64_encode_value v); try (discriminate G; fail).
  1: f_equal; apply Z.eqb_eq; apply G.
  all: try (exfalso; assert (false = true) by (apply G; apply in_map_iff; exists (Z.to_nat v); split; [lia|apply in_seq; lia]); discriminate).
  apply in_map_iff; exists (Z.to_nat v); split; [lia|apply in_seq; lia].
Qed.
Lemma b64_char_byte : forall v, 0 <= v < 64 -> 43 <= b64_char v <= 122.
Proof. intros v H. unfold b64_char. repeat match goal with |- context [if ?b then _ else _] => destruct b eqn:? end; lia. Qed.
Lemma dec_value64 : forall v, 0 <= v < 64 -> base64_decode_value (b64_char v) = Ok v.
Proof.
  intros v H. assert (G : forallb (fun v => match base64_decode_value (b64_char v) with Ok c => c =? v | _ => false end) (map Z.of_nat (seq 0 64)) = true)
    by (vm_compute; reflexivity).
  rewrite forallb_forall in G. specialize (G v).
  assert (I : In v (map Z.of_nat (seq 0 64))) by (apply in_map_iff; exists (Z.to_nat v); split; [lia|apply in_seq; lia]).
  specialize (G I). destruct (base64_decode_value (b64_char v)); try discriminate. f_equal. lia.
Qed.

(** ** Encoding *)
(** The block encoder started in any state and the block end together. *)
Lemma enc_three : forall a b c r result cap out, is_byte a -> is_byte b -> is_byte c -> zlen out + 4 <= cap ->
  b64_encode_block (a :: b :: c :: r) StepA result cap out =
  b64_encode_block r StepA (c mod 64) cap
    (out ++ [b64_char (a / 4); b64_char (a mod 4 * 16 + b / 16); b64_char (b mod 16 * 4 + c / 64); b64_char (c mod 64)]).
Proof.
  intros a b c r result cap out Ha Hb Hc L. cbn [b64_encode_block]. unfold is_byte in *.
  dm a 4. dm b 16. dm c 64.
  rewrite e_a, e_a', e_b, e_b', e_c, !e_c' by auto. rewrite lor16, lor4 by lia.
  rewrite !enc_value by lia. cbn [bind].
  repeat (rewrite push_ok by (rewrite ?zlen_app; repeat match goal with |- context [zlen [?x]] => change (zlen [x]) with 1 end; lia); cbn [bind]).
  repeat (rewrite <- app_assoc; cbn [app]). reflexivity.
Qed.

Lemma encode_all : forall n l result cap cap2 out, (length l <= n)%nat -> bytes_ok l -> zlen out + 2 * zlen l <= cap -> 3 <= cap2 ->
  exists out' step res', b64_encode_block l StepA result cap out = Ok (out', step, res') /\
  exists e, b64_encode_blockend step res' cap2 = Ok e /\ out' ++ e = out ++ base64 l.
Proof.
  induction n as [|n IH]; intros l result cap cap2 out Hn F L C.
  - destruct l; [|simpl in Hn; lia]. exists out, StepA, result. split; [reflexivity|]. exists []. split; [reflexivity|]. reflexivity.
  - destruct l as [|a [|b [|c r]]].
    + exists out, StepA, result. split; [reflexivity|]. exists []. split; reflexivity.
    + apply bytes_ok_cons in F as [Ha _]. change (zlen [a]) with 1 in L. cbn [b64_encode_block]. rewrite e_a, e_a' by auto.
      unfold is_byte in *. dm a 4. rewrite enc_value by lia. cbn [bind]. rewrite push_ok by (change (zlen [b64_char (a / 4)]) with 1; lia).
      cbn [bind]. eexists _, StepB, _. split; [reflexivity|]. cbn [b64_encode_blockend]. rewrite enc_value by lia. cbn [bind].
      rewrite push_ok by (cbn; lia). eexists. split; [reflexivity|]. cbn [app]. rewrite <- app_assoc. reflexivity.
    + apply bytes_ok_cons in F as [Ha F]. apply bytes_ok_cons in F as [Hb _]. change (zlen [a; b]) with 2 in L. cbn [b64_encode_block].
      rewrite e_a, e_a', e_b, e_b' by auto. unfold is_byte in *. dm a 4. dm b 16. rewrite lor16 by lia. rewrite !enc_value by lia. cbn [bind].
      repeat (rewrite push_ok by (rewrite ?zlen_app; repeat match goal with |- context [zlen [?x]] => change (zlen [x]) with 1 end; lia); cbn [bind]).
      eexists _, StepC, _. split; [reflexivity|]. cbn [b64_encode_blockend]. rewrite enc_value by lia. cbn [bind].
      rewrite push_ok by (cbn; lia). eexists. split; [reflexivity|]. repeat (rewrite <- app_assoc; cbn [app]). reflexivity.
    + apply bytes_ok_cons in F as [Ha F]. apply bytes_ok_cons in F as [Hb F]. apply bytes_ok_cons in F as [Hc F].
      rewrite !zlen_cons in L. pose proof (zlen_nonneg _ r). rewrite enc_three by (auto; lia).
      set (q := [b64_char (a / 4); b64_char (a mod 4 * 16 + b / 16); b64_char (b mod 16 * 4 + c / 64); b64_char (c mod 64)]).
      assert (Lq : zlen q = 4) by reflexivity.
      destruct (IH r (c mod 64) cap cap2 (out ++ q)) as (o & s & rr & E & e & E1 & E2); [simpl in Hn; lia|exact F|rewrite zlen_app; lia|exact C|].
      exists o, s, rr. split; [exact E|]. exists e. split; [exact E1|]. rewrite E2. rewrite <- app_assoc. reflexivity.
Qed.

Lemma bytes_to_base64_spec : forall l rest, bytes_ok l -> 1 <= zlen l < 65536 -> bytes_to_base64 (l ++ rest) (zlen l) = Ok (base64 l).
Proof.
  intros l rest F L. unfold bytes_to_base64. rewrite Z.mod_small by lia. rewrite take_rd_app by reflexivity. cbn [bind].
  destruct (encode_all (length l) l 0 (2 * zlen l + 1) (2 * zlen l + 1) []) as (o & s & r & E & e & E1 & E2); auto.
  - change (zlen (@nil Z)) with 0. lia.
  - lia.
  - rewrite E. cbn [bind]. rewrite E1. cbn [bind]. rewrite E2. reflexivity.
Qed.
Lemma bytes_to_base64_nil : forall rest, bytes_to_base64 rest 0 = Ok [].
Proof. intros. unfold bytes_to_base64. change (0 mod 65536) with 0. change (take_rd rest 0) with (take_rd ([] ++ rest) 0). rewrite take_rd_app by reflexivity. reflexivity. Qed.

(** ** Decoding *)
Lemma dec_four : forall a b c r cap out cur, is_byte a -> is_byte b -> is_byte c -> zlen out + 4 <= cap ->
  b64_decode_block (b64_char (a / 4) :: b64_char (a mod 4 * 16 + b / 16) :: b64_char (b mod 16 * 4 + c / 64) :: b64_char (c mod 64) :: r) Da cap out cur =
  b64_decode_block r Da cap (out ++ [a; b; c]) ((b mod 16 * 4 + c / 64) mod 4 * 64).
Proof.
  intros a b c r cap out cur Ha Hb Hc L. unfold is_byte in *. dm a 4. dm b 16. dm c 64. cbn [b64_decode_block].
  rewrite !dec_value64 by lia. cbn [bind].
  replace (a / 4 <? 0) with false by lia. rewrite push_ok by (change (zlen [0]) with 1; lia). cbn [bind].
  replace (a mod 4 * 16 + b / 16 <? 0) with false by lia. rewrite push_ok by (change (zlen [0; 0]) with 2; lia). cbn [bind].
  replace (b mod 16 * 4 + c / 64 <? 0) with false by lia. rewrite e_d1, e_d2, e_d3, e_d4, e_d5, e_c' by (unfold is_byte; lia).
  replace ((a mod 4 * 16 + b / 16) / 16 mod 4) with (a mod 4).
  2: { rewrite Z.div_add_l by lia. rewrite (Z.div_small (b / 16)) by lia. rewrite Z.add_0_r, Z.mod_mod by lia. reflexivity. }
  replace ((a mod 4 * 16 + b / 16) mod 16) with (b / 16).
  2: { rewrite Z.add_comm, Z.mod_add by lia. rewrite Z.mod_small by lia. reflexivity. }
  replace ((b mod 16 * 4 + c / 64) / 4 mod 16) with (b mod 16).
  2: { rewrite Z.div_add_l by lia. rewrite (Z.div_small (c / 64)) by lia. rewrite Z.add_0_r, Z.mod_mod by lia. reflexivity. }
  replace ((b mod 16 * 4 + c / 64) mod 4) with (c / 64).
  2: { rewrite Z.add_comm, Z.mod_add by lia. rewrite Z.mod_small by lia. reflexivity. }
  rewrite (Z.mod_small (a / 4)) by lia. rewrite lor4, lor16 by lia.
  rewrite push_ok by (rewrite ?zlen_app; change (zlen [0; 0]) with 2; change (zlen [a / 4 * 4 + a mod 4]) with 1; lia). cbn [bind].
  replace (c mod 64 <? 0) with false by lia.
  rewrite push_ok by (rewrite ?zlen_app; change (zlen [0]) with 1; change (zlen [a / 4 * 4 + a mod 4]) with 1; change (zlen [b / 16 * 16 + b mod 16]) with 1; lia). cbn [bind].
  rewrite Z.mod_mod by lia. rewrite lor64 by lia. repeat (rewrite <- app_assoc; cbn [app]).
  f_equal. f_equal. repeat (f_equal; try lia).
Qed.

Lemma dec_pad : forall r step cap out cur, b64_decode_block (61 :: r) step cap out cur = b64_decode_block r step cap out cur.
Proof. reflexivity. Qed.

Lemma decode_all : forall n l cap out cur, (length l <= n)%nat -> bytes_ok l -> zlen out + zlen l + 2 <= cap ->
  b64_decode_block (base64 l) Da cap out cur = Ok (out ++ l).
Proof.
  induction n as [|n IH]; intros l cap out cur Hn F L.
  - destruct l; [|simpl in Hn; lia]. cbn [base64 b64_decode_block]. change (zlen (@nil Z)) with 0 in L.
    replace (zlen out <? cap) with true by lia. rewrite app_nil_r. reflexivity.
  - destruct l as [|a [|b [|c r]]].
    + cbn [base64 b64_decode_block]. change (zlen (@nil Z)) with 0 in L. replace (zlen out <? cap) with true by lia. rewrite app_nil_r. reflexivity.
    + apply bytes_ok_cons in F as [Ha _]. change (zlen [a]) with 1 in L. cbn [base64]. unfold is_byte in *. dm a 4.
      cbn [b64_decode_block]. rewrite !dec_value64 by lia. cbn [bind].
      replace (a / 4 <? 0) with false by lia. rewrite push_ok by (change (zlen [0]) with 1; lia). cbn [bind].
      replace (a mod 4 * 16 <? 0) with false by lia. rewrite push_ok by (change (zlen [0; 0]) with 2; lia). cbn [bind].
      change (base64_decode_value 61) with (@Ok Z (-2)). cbn [bind]. change (-2 <? 0) with true. cbv iota.
      rewrite zlen_app. change (zlen [Z.lor (Z.shiftl (Z.land (a / 4) 63) 2) (Z.shiftr (Z.land (a mod 4 * 16) 48) 4)]) with 1.
      replace (zlen out + 1 <? cap) with true by lia. rewrite e_d1, e_d5 by (unfold is_byte; lia).
      rewrite (Z.mod_small (a / 4)) by lia. rewrite Z.div_mul by lia. rewrite Z.mod_mod by lia. rewrite lor4 by lia. repeat f_equal. lia.
    + apply bytes_ok_cons in F as [Ha F]. apply bytes_ok_cons in F as [Hb _]. change (zlen [a; b]) with 2 in L. cbn [base64]. unfold is_byte in *. dm a 4. dm b 16.
      cbn [b64_decode_block]. rewrite !dec_value64 by lia. cbn [bind].
      replace (a / 4 <? 0) with false by lia. rewrite push_ok by (change (zlen [0]) with 1; lia). cbn [bind].
      replace (a mod 4 * 16 + b / 16 <? 0) with false by lia. rewrite push_ok by (change (zlen [0; 0]) with 2; lia). cbn [bind].
      replace (b mod 16 * 4 <? 0) with false by lia.
      rewrite e_d1, e_d2, e_d3, e_d5 by (unfold is_byte; lia).
      replace ((a mod 4 * 16 + b / 16) / 16 mod 4) with (a mod 4).
      2: { rewrite Z.div_add_l by lia. rewrite (Z.div_small (b / 16)) by lia. rewrite Z.add_0_r, Z.mod_mod by lia. reflexivity. }
      replace ((a mod 4 * 16 + b / 16) mod 16) with (b / 16).
      2: { rewrite Z.add_comm, Z.mod_add by lia. rewrite Z.mod_small by lia. reflexivity. }
      rewrite (Z.mod_small (a / 4)) by lia. rewrite Z.div_mul by lia. rewrite Z.mod_mod by lia. rewrite lor4, lor16 by lia.
      rewrite push_ok by (rewrite ?zlen_app; change (zlen [0; 0]) with 2; change (zlen [a / 4 * 4 + a mod 4]) with 1; lia). cbn [bind].
      change (base64_decode_value 61) with (@Ok Z (-2)). cbn [bind]. change (-2 <? 0) with true. cbv iota.
      rewrite !zlen_app. change (zlen [a / 4 * 4 + a mod 4]) with 1. change (zlen [b / 16 * 16 + b mod 16]) with 1.
      replace (zlen out + 1 + 1 <? cap) with true by lia. rewrite <- app_assoc. cbn [app]. repeat f_equal; lia.
    + apply bytes_ok_cons in F as [Ha F]. apply bytes_ok_cons in F as [Hb F]. apply bytes_ok_cons in F as [Hc F].
      rewrite !zlen_cons in L. pose proof (zlen_nonneg _ r). cbn [base64]. rewrite dec_four by (auto; lia).
      rewrite IH; [|simpl in Hn; lia|auto|rewrite zlen_app; change (zlen [a; b; c]) with 3; lia].
      rewrite <- app_assoc. reflexivity.
Qed.

Lemma base64_len : forall n l, (length l <= n)%nat -> zlen (base64 l) >= zlen l + (if zlen l =? 0 then 0 else 1).
Proof.
  induction n as [|n IH]; intros l Hn; [destruct l; [cbn; lia|simpl in Hn; lia]|].
  destruct l as [|a [|b [|c r]]]; [cbn; lia|cbn; lia|cbn; lia|]. cbn [base64]. rewrite !zlen_cons.
  specialize (IH r ltac:(simpl in Hn; lia)). pose proof (zlen_nonneg _ r).
  replace (zlen r + 1 + 1 + 1 =? 0) with false by lia. destruct (zlen r =? 0); lia.
Qed.

Lemma base64_roundtrip : forall l, bytes_ok l -> base64_str_to_bytes (base64 l) = Ok l.
Proof.
  intros l F. unfold base64_str_to_bytes. destruct l as [|a l].
  - reflexivity.
  - rewrite (decode_all (length (a :: l)) (a :: l)); auto. pose proof (base64_len _ (a :: l) (le_n _)). change (zlen (@nil Z)) with 0.
    rewrite zlen_cons in *. pose proof (zlen_nonneg _ l). replace (zlen l + 1 =? 0) with false in H by lia. lia.
Qed.

(** ** The decoder on arbitrary text *)
Lemma decode_value_cases : forall c, is_byte c ->
  base64_decode_value c = UB OobRead /\ c = 123 \/ exists v, base64_decode_value c = Ok v /\ -2 <= v < 64 /\ c <> 123.
Proof.
  intros c H. assert (G : (match base64_decode_value c with UB OobRead => c =? 123 | Ok v => (-2 <=? v) && (v <? 64) && negb (c =? 123) | _ => false end) = true).
  { revert c H. apply (forall_bytes (fun c => match base64_decode_value c with UB OobRead => c =? 123 | Ok v => (-2 <=? v) && (v <? 64) && negb (c =? 123) | _ => false end)).
    vm_compute. reflexivity. }
  destruct (base64_decode_value c) as [v|r|f|]; try discriminate.
  - right. exists v. split; [reflexivity|lia].
  - destruct f; try discriminate. left. split; [reflexivity|lia].
Qed.

Definition dec_slack (s : b64dstep) : Z := match s with Da => 1 | _ => 2 end.
Lemma decode_safe : forall code step cap out cur, bytes_ok code -> ~ In 123 code -> zlen out + zlen code + dec_slack step <= cap ->
  exists o, b64_decode_block code step cap out cur = Ok o.
Proof.
  induction code as [|c r IH]; intros step cap out cur F N L.
  - cbn [b64_decode_block]. change (zlen (@nil Z)) with 0 in L. assert (1 <= dec_slack step) by (destruct step; cbn; lia).
    replace (zlen out <? cap) with true by lia. eauto.
  - apply bytes_ok_cons in F as [Hc F]. rewrite zlen_cons in L. pose proof (zlen_nonneg _ r).
    assert (N' : ~ In 123 r) by (intro; apply N; right; auto).
    destruct (decode_value_cases c Hc) as [[_ ->]|(v & E & _)]; [exfalso; apply N; left; reflexivity|].
    cbn [b64_decode_block]. rewrite E. cbn [bind]. destruct (v <? 0); [apply IH; auto; lia|].
    destruct step; cbn [dec_slack] in L.
    + rewrite push_ok by (change (zlen [0]) with 1; lia). cbn [bind]. apply IH; auto. cbn [dec_slack]. lia.
    + rewrite push_ok by (change (zlen [0; 0]) with 2; lia). cbn [bind]. apply IH; auto. cbn [dec_slack]. rewrite zlen_app. change (zlen [Z.lor cur (Z.shiftr (Z.land v 48) 4)]) with 1. lia.
    + rewrite push_ok by (change (zlen [0; 0]) with 2; lia). cbn [bind]. apply IH; auto. cbn [dec_slack]. rewrite zlen_app. change (zlen [Z.lor cur (Z.shiftr (Z.land v 60) 2)]) with 1. lia.
    + rewrite push_ok by (change (zlen [0]) with 1; lia). cbn [bind]. apply IH; auto. cbn [dec_slack]. rewrite zlen_app. change (zlen [Z.lor cur (Z.land v 63)]) with 1. lia.
Qed.
Lemma base64_decode_safe : forall s, bytes_ok s -> ~ In 123 s -> exists o, base64_str_to_bytes s = Ok o.
Proof. intros s F N. unfold base64_str_to_bytes. apply decode_safe; auto. cbn [dec_slack]. change (zlen (@nil Z)) with 0. lia. Qed.

(** The '{' reads behind the table. *)
Lemma decode_brace : forall code step cap out cur, bytes_ok code -> In 123 code -> zlen out + zlen code + dec_slack step <= cap ->
  b64_decode_block code step cap out cur = UB OobRead.
Proof.
  induction code as [|c r IH]; intros step cap out cur F N L; [destruct N|].
  apply bytes_ok_cons in F as [Hc F]. rewrite zlen_cons in L. pose proof (zlen_nonneg _ r).
  destruct (decode_value_cases c Hc) as [[E ->]|(v & E & _ & C)].
  - cbn [b64_decode_block]. rewrite E. reflexivity.
  - assert (N' : In 123 r) by (destruct N; [congruence|auto]).
    cbn [b64_decode_block]. rewrite E. cbn [bind]. destruct (v <? 0); [apply IH; auto; lia|].
    destruct step; cbn [dec_slack] in L.
    + rewrite push_ok by (change (zlen [0]) with 1; lia). cbn [bind]. apply IH; auto. cbn [dec_slack]. lia.
    + rewrite push_ok by (change (zlen [0; 0]) with 2; lia). cbn [bind]. apply IH; auto. cbn [dec_slack]. rewrite zlen_app. change (zlen [Z.lor cur (Z.shiftr (Z.land v 48) 4)]) with 1. lia.
    + rewrite push_ok by (change (zlen [0; 0]) with 2; lia). cbn [bind]. apply IH; auto. cbn [dec_slack]. rewrite zlen_app. change (zlen [Z.lor cur (Z.shiftr (Z.land v 60) 2)]) with 1. lia.
    + rewrite push_ok by (change (zlen [0]) with 1; lia). cbn [bind]. apply IH; auto. cbn [dec_slack]. rewrite zlen_app. change (zlen [Z.lor cur (Z.land v 63)]) with 1. lia.
Qed.
